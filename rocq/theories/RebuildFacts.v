(** Rebuilding galaxies from keyword arguments; splitting galaxy columns by type. *)
From Verif Require Import Py Num Np Df Data DataFacts DfFacts.

Section Rebuild.
Context {N : Num}.

(** New arrays for one particle set. *)
Record upd9 : Type := mkUpd {
  u_m : list N; u_x : list N; u_y : list N; u_z : list N;
  u_vx : list N; u_vy : list N; u_vz : list N; u_pot : option (list N); u_soft : N }.

Definition upd_of (p : pset N) : upd9 :=
  mkUpd (p_m p) (p_x p) (p_y p) (p_z p) (p_vx p) (p_vy p) (p_vz p) (p_pot p) (p_soft p).

Definition build1 (t : ptype) (u : upd9) : res (pset N) :=
  mk_pset t (u_m u) (u_x u) (u_y u) (u_z u) (u_vx u) (u_vy u) (u_vz u) (u_pot u) (u_soft u).
Definition build (us ud ug : upd9) : res (galaxy N) :=
  do s <- build1 STARS us; do d <- build1 DARK_MATTER ud; do g <- build1 GAS ug; mk_galaxy s d g.

(** Keyword dictionary of three updates. *)
Definition kw1 (u : upd9) (sfx : string) : dict (kwval N) :=
  [(("m_" ++ sfx)%string, KArr (u_m u)); (("x_" ++ sfx)%string, KArr (u_x u));
   (("y_" ++ sfx)%string, KArr (u_y u)); (("z_" ++ sfx)%string, KArr (u_z u));
   (("vx_" ++ sfx)%string, KArr (u_vx u)); (("vy_" ++ sfx)%string, KArr (u_vy u));
   (("vz_" ++ sfx)%string, KArr (u_vz u)); (("potential_" ++ sfx)%string, kwpot (u_pot u));
   (("softening_" ++ sfx)%string, KNum (u_soft u))].
Definition kw3 (us ud ug : upd9) : dict (kwval N) := kw1 us "s" ++ kw1 ud "dm" ++ kw1 ug "g".

Lemma mkgalaxy_kw3 us ud ug : mkgalaxy (kw3 us ud ug) = build us ud ug.
Proof.
  unfold mkgalaxy.
  assert (dkeys (kw3 us ud ug) = dkeys (kw3 us us us)) as -> by reflexivity.
  assert (forallb (fun k => smem k mkgalaxy_params) (dkeys (kw3 us us us)) = true) as -> by (vm_compute; reflexivity).
  assert (forallb (fun k => smem k (dkeys (kw3 us us us)))
     (flat_map required_names ["s"; "dm"; "g"]%string) = true) as -> by (vm_compute; reflexivity).
  cbn [guard bind].
  rewrite (@mk_pset_kw_ok N (kw3 us ud ug) "s" STARS (u_m us) (u_x us) (u_y us) (u_z us)
             (u_vx us) (u_vy us) (u_vz us) (u_pot us) (u_soft us)) by reflexivity.
  rewrite (@mk_pset_kw_ok N (kw3 us ud ug) "dm" DARK_MATTER (u_m ud) (u_x ud) (u_y ud) (u_z ud)
             (u_vx ud) (u_vy ud) (u_vz ud) (u_pot ud) (u_soft ud)) by reflexivity.
  rewrite (@mk_pset_kw_ok N (kw3 us ud ug) "g" GAS (u_m ug) (u_x ug) (u_y ug) (u_z ug)
             (u_vx ug) (u_vy ug) (u_vz ug) (u_pot ug) (u_soft ug)) by reflexivity.
  reflexivity.
Qed.

Lemma as_kwargs_kw3 g :
  galaxy_as_kwargs g = kw3 (upd_of (g_stars g)) (upd_of (g_dm g)) (upd_of (g_gas g)).
Proof. reflexivity. Qed.

Definition upd_lens (u : upd9) : Prop :=
  lens_ok (u_m u) (u_x u) (u_y u) (u_z u) (u_vx u) (u_vy u) (u_vz u) (u_pot u).
Definition pset_upd (t : ptype) (u : upd9) : pset N :=
  pset_of t (u_m u) (u_x u) (u_y u) (u_z u) (u_vx u) (u_vy u) (u_vz u) (u_pot u) (u_soft u).

Lemma build1_ok t u : upd_lens u -> build1 t u = Ok (pset_upd t u).
Proof. apply mk_pset_ok. Qed.

Definition isSome {A} (o : option A) : bool := match o with Some _ => true | None => false end.

Lemma build_ok us ud ug : upd_lens us -> upd_lens ud -> upd_lens ug ->
  isSome (u_pot ud) = isSome (u_pot us) -> isSome (u_pot ug) = isSome (u_pot us) ->
  build us ud ug =
  Ok (mkGal (pset_upd STARS us) (pset_upd DARK_MATTER ud) (pset_upd GAS ug) (isSome (u_pot us))).
Proof.
  intros A B C D E. unfold build. rewrite !build1_ok by auto. cbn [bind].
  apply mk_galaxy_ok; auto.
Qed.

Lemma upd_of_lens p : pset_ok p -> upd_lens (upd_of p).
Proof. apply pset_ok_lens. Qed.
Lemma pset_upd_of p : pset_ok p -> pset_upd (p_type p) (upd_of p) = p.
Proof. intros H. apply pset_ok_iff in H as [_ E]. now rewrite E at 2. Qed.

(** C05: round trip. *)
Lemma mkgalaxy_as_kwargs (g : galaxy N) : gal_ok g -> mkgalaxy (galaxy_as_kwargs g) = Ok g.
Proof.
  intros H. pose proof H as H'. apply gal_ok_facts in H as [gf_s0 gf_d0 gf_g0 gf_ts0 gf_td0 gf_tg0 gf_hs0 gf_hd0 gf_hg0].
  rewrite as_kwargs_kw3, mkgalaxy_kw3.
  pose proof (pset_ok_haspot _ gf_s0) as A. pose proof (pset_ok_haspot _ gf_d0) as B.
  pose proof (pset_ok_haspot _ gf_g0) as C.
  rewrite build_ok; auto using upd_of_lens.
  - rewrite <- gf_ts0 at 1. rewrite <- gf_td0 at 1. rewrite <- gf_tg0 at 1.
    rewrite !pset_upd_of by auto. f_equal.
    unfold isSome; simpl. rewrite <- A, gf_hs0. destruct g; reflexivity.
  - unfold isSome; simpl. congruence.
  - unfold isSome; simpl. congruence.
Qed.

(** ** Type masks *)

Lemma bmask_repeat_true {A} (l : list A) : bmask (repeat true (length l)) l = l.
Proof. induction l; simpl; congruence. Qed.
Lemma bmask_repeat_false {A} n (l : list A) : bmask (repeat false n) l = [].
Proof. revert l; induction n; intros [|x l]; simpl; auto. Qed.

End Rebuild.
Arguments upd9 : clear implicits.
