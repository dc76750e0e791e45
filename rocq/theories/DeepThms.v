(** Heavier surroundings and a smaller softening never raise a computed potential (C118). *)
From Coq Require Import Reals Lra Lia.
From Verif Require Import Py Num RX F64 Np Data Spec SpecR SpecPot Potential DataFacts DataThms PotConcFacts PotFacts CenterFacts CenterThms AlignThms PotThms Ex SpecAcc AccFacts AccThms SpecDeep.
Local Open Scope R_scope.

Section Deep.
Context {S : Num} (RS : Rounded S).
Notation v := (val RS).
Notation rd := (rnd RS).
Lemma rd0 : rd (XR 0) = XR 0.
Proof. apply (rnd_int RS 0). pose proof (intmax_pos RS). lia. Qed.
Lemma square_pos x : v (x * x)%num <> XNaN -> xle (XR 0) (v (x * x)%num).
Proof.
  rewrite (val_mul RS). intros N. rewrite <- rd0. apply (rnd_mono RS).
  assert (xmul (v x) (v x) <> XNaN) by (intros E; rewrite E in N; now rewrite (rnd_nan RS) in N).
  destruct (v x) as [r| | |]; cbn in *; try tauto. nra.
Qed.
Lemma sum_pos x y : xle (XR 0) (v x) -> xle (XR 0) (v y) -> xle (XR 0) (v (x + y)%num).
Proof. intros A B. rewrite (val_add RS), <- rd0. apply (rnd_mono RS). destruct (v x), (v y); cbn in *; try tauto. lra. Qed.
Lemma sum_nan x y : v (x + y)%num <> XNaN -> v x <> XNaN /\ v y <> XNaN.
Proof. rewrite (val_add RS). intros N. split; intros E; apply N; rewrite E; [|destruct (v x)]; cbn; apply (rnd_nan RS). Qed.
Lemma sum_mono x x' y y' : xle (XR 0) (v x) -> xle (XR 0) (v y) -> xle (v x) (v x') -> xle (v y) (v y') -> xle (v (x + y)%num) (v (x' + y')%num).
Proof. intros A B C D. rewrite !(val_add RS). apply (rnd_mono RS). destruct (v x), (v y), (v x'), (v y'); cbn in *; try tauto. lra. Qed.
Lemma sum_above x y : xle (XR 0) (v x) -> xle (XR 0) (v y) -> xle (v x) (v (x + y)%num).
Proof. intros A B. rewrite (val_add RS), <- (rnd_val RS x). apply (rnd_mono RS). rewrite (rnd_val RS). destruct (v x), (v y); cbn in *; try tauto. lra. Qed.
Lemma sqrt_mono x y : xle (XR 0) (v x) -> xle (v x) (v y) -> xle (v (nsqrt x)) (v (nsqrt y)).
Proof.
  intros A B. rewrite !(val_sqrt RS). apply (rnd_mono RS). destruct (v x) as [r| | |], (v y) as [s| | |]; cbn in *; try tauto.
  - destruct (Rlt_dec r 0); [lra|]. destruct (Rlt_dec s 0); [lra|]. cbn. now apply sqrt_le_1_alt.
  - destruct (Rlt_dec r 0); [lra|]. exact I.
Qed.
Lemma sqrt_nan x : v (nsqrt x) <> XNaN -> v x <> XNaN.
Proof. rewrite (val_sqrt RS). intros N E. apply N. rewrite E. apply (rnd_nan RS). Qed.

(** A larger softening, no smaller distance. *)
Lemma dist_mono soft soft' p q q' : nle n0 soft' = true -> nle soft' soft = true -> same_place q q' -> forall p', same_place p p' ->
  v (soft_dist soft' p' q') <> XNaN -> xle (v (soft_dist soft' p' q')) (v (soft_dist soft p q)).
Proof.
  intros H0 H1. destruct p as [[x y] [z m]], q as [[a b] [c n]], q' as [[a' b'] [c' n']]. intros (E & E2) [[x' y'] [z' m']] (F & F2). cbn in E, E2, F, F2.
  injection E as <- <-. injection F as <- <-. subst c' z'. unfold soft_dist. intros N. apply sqrt_nan in N. destruct (sum_nan _ _ N) as (N1 & N4). destruct (sum_nan _ _ N1) as (N2 & N5). destruct (sum_nan _ _ N2) as (N6 & N7).
  pose proof (square_pos _ N4) as P4. pose proof (square_pos _ N5) as P5. pose proof (square_pos _ N6) as P6. pose proof (square_pos _ N7) as P7.
  pose proof (sum_pos _ _ (sum_pos _ _ P6 P7) P5) as PS.
  apply (nle_iff RS) in H0, H1. rewrite (val_n0 RS) in H0.
  apply sqrt_mono; [now apply sum_pos|]. apply sum_mono; auto; [apply xle_refl; exact N1|].
  rewrite !(val_mul RS) in *. apply (rnd_mono RS). assert (xmul (v soft') (v soft') <> XNaN) by (intros Q; rewrite Q, (rnd_nan RS) in N4; now apply N4).
  destruct (v soft') as [r| | |], (v soft) as [s| | |]; cbn in *; try tauto. nra.
Qed.
(** A larger mass over a smaller distance. *)
Lemma term_mono m m' d d' : nle n0 m = true -> nle m m' = true -> nfin m' = true -> xlt (XR 0) (v d') -> xle (v d') (v d) ->
  xle (XR 0) (v (m / d)%num) /\ xle (v (m / d)%num) (v (m' / d')%num).
Proof.
  intros H0 H1 F D0 D1. apply (nle_iff RS) in H0, H1. rewrite (val_n0 RS) in H0. rewrite (val_fin RS) in F.
  assert (v d' <> XR 0) by (intros E; rewrite E in D0; cbn in D0; lra). assert (v d <> XR 0) by (intros E; rewrite E in D1; destruct (v d'); cbn in *; try tauto; lra).
  rewrite !(val_div RS) by assumption. split; [rewrite <- rd0|]; apply (rnd_mono RS).
  - destruct (v m) as [r| | |], (v m') as [s| | |], (v d) as [e| | |], (v d') as [f| | |]; cbn in *; try tauto; try discriminate; try lra; repeat (destruct (Req_EM_T _ 0); [lra|]); apply Rmult_le_pos; [lra|apply Rlt_le, Rinv_0_lt_compat; lra].
  - destruct (v m) as [r| | |], (v m') as [s| | |], (v d) as [e| | |], (v d') as [f| | |]; cbn in *; try tauto; try discriminate; try lra; repeat (destruct (Req_EM_T _ 0); [lra|]).
    + unfold Rdiv. apply Rmult_le_compat; [lra|apply Rlt_le, Rinv_0_lt_compat; lra|lra|apply Rinv_le_contravar; lra].
    + apply Rmult_le_pos; [lra|apply Rlt_le, Rinv_0_lt_compat; lra].
Qed.
Lemma sums_mono soft soft' p p' l l' : nle n0 soft' = true -> nle soft' soft = true -> same_place p p' -> heavier l l' ->
  (forall q, In q l' -> nlt n0 (soft_dist soft' p' q) = true) -> forall acc acc', xle (XR 0) (v acc) -> xle (v acc) (v acc') ->
  xle (XR 0) (v (fold_left (fun acc q => (acc + src_m q / soft_dist soft p q)%num) l acc)) /\
  xle (v (fold_left (fun acc q => (acc + src_m q / soft_dist soft p q)%num) l acc)) (v (fold_left (fun acc q => (acc + src_m q / soft_dist soft' p' q)%num) l' acc')).
Proof.
  intros H0 H1 P HV. induction HV as [|q q' l l' SP M0 M1 F HV IH|q' l l' M0 F HV IH]; intros D acc acc' A B; cbn [fold_left]; [auto|..].
  - assert (D' : xlt (XR 0) (v (soft_dist soft' p' q'))) by (rewrite <- (val_n0 RS); apply (nlt_iff RS), D; now left).
    assert (DM : xle (v (soft_dist soft' p' q')) (v (soft_dist soft p q))) by (apply dist_mono; auto; intros E; rewrite E in D'; destruct D').
    destruct (term_mono _ _ _ _ M0 M1 F D' DM) as (T0 & T1). apply IH; [intros; apply D; now right|now apply sum_pos|now apply sum_mono].
  - assert (D' : xlt (XR 0) (v (soft_dist soft' p' q'))) by (rewrite <- (val_n0 RS); apply (nlt_iff RS), D; now left).
    assert (RF : xle (v (src_m q')) (v (src_m q'))) by (apply xle_refl; rewrite (val_fin RS) in F; destruct (v (src_m q')); discriminate).
    assert (RD : xle (v (soft_dist soft' p' q')) (v (soft_dist soft' p' q'))) by (apply xle_refl; intros E; rewrite E in D'; destruct D').
    destruct (term_mono (src_m q') (src_m q') _ _ M0 (proj2 (nle_iff RS _ _) RF) F D' RD) as (T0 & T1).
    apply IH; [intros; apply D; now right|exact A|]. eapply xle_trans; [exact B|]. apply sum_above; [eapply xle_trans; [exact A|exact B]|exact T0].
Qed.
End Deep.

(** The potential of one particle in two galaxies.  [g'] has no larger softening; around the particle, which is at the
    same place in both, [g'] has the same particles, none of them lighter, and possibly more.  Then the computed
    potential is no higher in [g'], bit for bit, and with the same kinetic energy neither is the total energy: a bound
    particle stays bound. *)
Lemma c118_deeper : forall (W S : Num) (RW : Rounded W) (RS : Rounded S) (cast : W -> S) (lift : S -> W) (G : S) junk junk' (g g' h h' : galaxy W) so so' i i' p p' w w',
  (forall y, val RW (lift y) = val RS y) -> nlt n0 G = true -> nfin G = true ->
  constructible g -> constructible g' -> g_haspot g = false -> g_haspot g' = false ->
  (forall s, largest_softening g s -> cast s = so) -> (forall s, largest_softening g' s -> cast s = so') ->
  nle n0 so' = true -> nle so' so = true ->
  let l := sources (map cast (all_x g)) (map cast (all_y g)) (map cast (all_z g)) (map cast (all_m g)) in
  let l' := sources (map cast (all_x g')) (map cast (all_y g')) (map cast (all_z g')) (map cast (all_m g')) in
  nth_error l i = Some p -> nth_error l' i' = Some p' -> same_place p p' -> heavier (others l i) (others l' i') ->
  (forall q, In q (others l' i') -> nlt n0 (soft_dist so' p' q) = true) ->
  potential cast lift (backend_table G true junk) "fortran" g = Ok h ->
  potential cast lift (backend_table G true junk') "fortran" g' = Ok h' ->
  nth_error (all_pots h) i = Some w -> nth_error (all_pots h') i' = Some w' ->
  nle w' w = true /\ nle w n0 = true /\
  forall ke, nfin ke = true -> nle (ke + w')%num (ke + w)%num = true /\ (nlt (ke + w)%num n0 = true -> nlt (ke + w')%num n0 = true).
Proof.
  intros W S RW RS cast lift G junk junk' g g' h h' so so' i i' p p' w w' HL G0 GF Hg Hg' Hp Hp' So So' S0 S1 l l' Hi Hi' SP HV HD Eh Eh' Hw Hw'.
  assert (V : forall jk (g0 : galaxy W) h0 s0 i0 p0 w0, constructible g0 -> g_haspot g0 = false -> (forall s, largest_softening g0 s -> cast s = s0) ->
    let l0 := sources (map cast (all_x g0)) (map cast (all_y g0)) (map cast (all_z g0)) (map cast (all_m g0)) in
    nth_error l0 i0 = Some p0 -> potential cast lift (backend_table G true jk) "fortran" g0 = Ok h0 -> nth_error (all_pots h0) i0 = Some w0 ->
    w0 = lift (nopp (pair_sum s0 l0 i0 p0 * G)%num)).
  { clear - RW. intros jk g0 h0 s0 i0 p0 w0 Hg Hp So l0 Hi Eh Hw.
    destruct (c19_result _ S RW cast lift (backend_table G true jk) "fortran" (fortran_potential G true) g0 Hg Hp eq_refl) as (s' & So' & K).
    rewrite (So s' So') in K. specialize (K _ eq_refl). destruct K as (h1 & Hh & _ & _ & _ & Hpots & _).
    { rewrite map_length, fortran_kernel_length. apply bodies_glen. exact Hg. }
    rewrite Eh in Hh. injection Hh as <-. rewrite Hpots, !nth_error_map in Hw. rewrite (fortran_kernel_nth _ _ _ _ _ _ _ Hi) in Hw. cbn [option_map] in Hw. now injection Hw as <-. }
  rewrite (V junk g h so i p w Hg Hp So Hi Eh Hw), (V junk' g' h' so' i' p' w' Hg' Hp' So' Hi' Eh' Hw').
  fold l l'. unfold pair_sum. assert (Z0 : xle (XR 0) (val RS (n0 : S))) by (rewrite (val_n0 RS); cbn; lra).
  destruct (sums_mono RS so so' p p' _ _ S0 S1 SP HV HD n0 n0 Z0 ltac:(apply xle_refl; rewrite (val_n0 RS); discriminate)) as (A & B).
  set (a := fold_left _ (others l i) n0) in *. set (b := fold_left _ (others l' i') n0) in *. clearbody a b.
  apply (nlt_iff RS) in G0. rewrite (val_n0 RS) in G0. rewrite (val_fin RS) in GF.
  assert (Q : nle (lift (nopp (b * G)%num)) (lift (nopp (a * G)%num)) = true /\ nle (lift (nopp (a * G)%num)) n0 = true).
  { split; apply (nle_iff RW); rewrite ?(val_n0 RW), !HL, !(val_opp RS), !(val_mul RS), <- !(rnd_opp RS); [|rewrite <- (rd0 RS)]; apply (rnd_mono RS);
    destruct (val RS G) as [k| | |]; try discriminate; cbn in G0; destruct (val RS a) as [r| | |], (val RS b) as [s| | |]; cbn in A, B |- *; try tauto; try nra;
    repeat (destruct (Req_EM_T _ 0); [lra|]); try (rewrite Raux.Rcompare_Gt by lra); cbn; try tauto; try nra. }
  destruct Q as (Q1 & Q2). split; [exact Q1|]. split; [exact Q2|]. intros ke Hk. set (u := lift (nopp (a * G)%num)) in *. set (u' := lift (nopp (b * G)%num)) in *. clearbody u u'.
  assert (T : xle (val RW (ke + u')%num) (val RW (ke + u)%num)).
  { apply (nle_iff RW) in Q1, Q2. rewrite (val_n0 RW) in Q2. rewrite (val_fin RW) in Hk. rewrite !(val_add RW). apply (rnd_mono RW).
    destruct (val RW ke), (val RW u), (val RW u'); cbn in *; try tauto; try discriminate; lra. }
  split; [now apply (nle_iff RW)|]. intros L. apply (nlt_iff RW) in L. apply (nlt_iff RW). eapply xle_lt_trans; eassumption.
Qed.

(** "A further particle makes the computed potential strictly deeper": false, its contribution may be rounded away. *)
Definition galQ : res (galaxy F64) :=
  do s <- (zset STARS [1; 2] [0; 1] [0; 0] [0; 0] [0; 0] [0; 0] [0; 0] None 0)%Z;
  do d <- (zset DARK_MATTER [] [] [] [] [] [] [] None 7)%Z;
  do q <- (zset GAS [4; 1] [2; 1073741824] [0; 0] [0; 0] [0; 0] [0; 0] [0; 0] None 0)%Z;
  mk_galaxy s d q.
Lemma c118_strict_refuted : exists (g g' h h' : galaxy F64), galP = Ok g /\ galQ = Ok g' /\
  shows (all_m g') = shows (all_m g) ++ [sZ 1] /\ shows (all_x g') = shows (all_x g) ++ [sZ 1073741824] /\
  shows (all_y g') = shows (all_y g) ++ [sZ 0] /\ shows (all_z g') = shows (all_z g) ++ [sZ 0] /\
  potential (W:=F64) (S:=F32) to32 to64 (backend_table n1 true junk0) "fortran" g = Ok h /\
  potential (W:=F64) (S:=F32) to32 to64 (backend_table n1 true junk0) "fortran" g' = Ok h' /\
  firstn 3 (shows (all_pots h')) = shows (all_pots h).
Proof.
  set (P := potential (W:=F64) (S:=F32) to32 to64 (backend_table n1 true junk0) "fortran").
  assert (H : match galP, galQ with Ok g, Ok g' => match P g, P g' with Ok h, Ok h' =>
     shows (all_m g') = shows (all_m g) ++ [sZ 1] /\ shows (all_x g') = shows (all_x g) ++ [sZ 1073741824] /\
     shows (all_y g') = shows (all_y g) ++ [sZ 0] /\ shows (all_z g') = shows (all_z g) ++ [sZ 0] /\
     firstn 3 (shows (all_pots h')) = shows (all_pots h) | _, _ => False end | _, _ => False end) by (vm_compute; repeat split; reflexivity).
  destruct galP as [g|]; [|destruct H]. destruct galQ as [g'|]; [|destruct H]. destruct (P g) as [h|] eqn:Eh; [|destruct H]. destruct (P g') as [h'|] eqn:Eh'; [|destruct H].
  destruct H as (A & B & C & D & E). exists g, g', h, h'. repeat (split; [reflexivity||assumption|]). exact E.
Qed.

(** The galaxy of [ex_c63] (masses 1, 2 and 4 at 0, 1 and 2, potential -4 at the first) and one with masses 1, 3 and 4
    and a dark matter particle of mass 5 at 4 between them (potential -6.25). *)
Definition galR : res (galaxy F64) :=
  do s <- (zset STARS [1; 3] [0; 1] [0; 0] [0; 0] [0; 0] [0; 0] [0; 0] None 0)%Z;
  do d <- (zset DARK_MATTER [5] [4] [0] [0] [0] [0] [0] None 0)%Z;
  do q <- (zset GAS [4] [2] [0] [0] [0] [0] [0] None 0)%Z;
  mk_galaxy s d q.
Example ex_c118 :
  rmap (fun h => firstn 1 (shows (all_pots h))) (do g <- galP; potential (W:=F64) (S:=F32) to32 to64 (backend_table n1 true junk0) "fortran" g) = Ok [sZ (-4)] /\
  rmap (fun h => firstn 1 (shows (all_pots h))) (do g <- galR; potential (W:=F64) (S:=F32) to32 to64 (backend_table n1 true junk0) "fortran" g) = Ok [sQ (-25) 4] /\
  let cast l := map to32 (fZs l) : list F32 in
  let l := sources (cast [0; 1; 2]%Z) (cast [0; 0; 0]%Z) (cast [0; 0; 0]%Z) (cast [1; 2; 4]%Z) in
  let l' := sources (cast [0; 1; 4; 2]%Z) (cast [0; 0; 0; 0]%Z) (cast [0; 0; 0; 0]%Z) (cast [1; 3; 5; 4]%Z) in
  heavier (others l 0) (others l' 0) /\
  (forall p q, nth_error l' 0 = Some p -> In q (others l' 0) -> nlt n0 (soft_dist (S:=F32) (to32 (fZ 0)) p q) = true).
Proof.
  split; [vm_compute; reflexivity|]. split; [vm_compute; reflexivity|]. intros cast l l'. split.
  - apply heavier_same; [split; reflexivity|vm_compute; reflexivity..|]. apply heavier_new; [vm_compute; reflexivity..|]. apply heavier_same; [split; reflexivity|vm_compute; reflexivity..|]. apply heavier_nil.
  - intros p q Hp. injection Hp as <-. intros [<-|[<-|[<-|[]]]]; vm_compute; reflexivity.
Qed.
