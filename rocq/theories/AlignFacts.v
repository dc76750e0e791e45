(** Facts about alignment. *)
From Verif Require Import Py Num RX Np Df Data DataFacts DfFacts RebuildFacts Center CenterFacts Align
  Spec DataThms CenterThms.

Section AlignFacts.
Context {N : Num}.
Implicit Types (g : galaxy N) (p : pset N).

Lemma map3_length {A B C D} (f : A -> B -> C -> D) a b c :
  length b = length a -> length c = length a -> length (map3 f a b c) = length a.
Proof. intros; unfold map3. rewrite !map2_length. lia. Qed.
Lemma map3_nth {A B C D} (f : A -> B -> C -> D) a b c i :
  nth_error (map3 f a b c) i =
  match nth_error a i, nth_error b i, nth_error c i with
  | Some x, Some y, Some z => Some (f x y z) | _, _, _ => None end.
Proof.
  unfold map3. rewrite !map2_nth. destruct (nth_error a i), (nth_error b i), (nth_error c i); reflexivity.
Qed.
Lemma map3_map {A B C D E} (f : A -> B -> C -> D) (ga : E -> A) (gb : E -> B) (gc : E -> C) l :
  map3 f (map ga l) (map gb l) (map gc l) = map (fun q => f (ga q) (gb q) (gc q)) l.
Proof. unfold map3. induction l; simpl; congruence. Qed.

(** Rotation of a set / galaxy. *)
Definition rot_set (A : mat3 N) (p : pset N) : pset N :=
  pset_of (p_type p) (p_m p)
    (map3 (rot_x A) (p_x p) (p_y p) (p_z p)) (map3 (rot_y A) (p_x p) (p_y p) (p_z p))
    (map3 (rot_z A) (p_x p) (p_y p) (p_z p))
    (map3 (rot_x A) (p_vx p) (p_vy p) (p_vz p)) (map3 (rot_y A) (p_vx p) (p_vy p) (p_vz p))
    (map3 (rot_z A) (p_vx p) (p_vy p) (p_vz p)) (p_pot p) (p_soft p).
Definition rot_gal (A : mat3 N) (g : galaxy N) : galaxy N :=
  mkGal (rot_set A (g_stars g)) (rot_set A (g_dm g)) (rot_set A (g_gas g)) (g_haspot g).
Definition gal_matrix (g : galaxy N) (c : option N) : mat3 N :=
  let s := g_stars g in get_rot_matrix (p_m s) (p_x s) (p_y s) (p_z s) (p_Jx s) (p_Jy s) (p_Jz s) c.

Lemma ncol_pcol n p ks k : In k ks -> ncol (mkDf n (keyed (pcol p) ks)) k = Ok (to_numpy (pcol p k)).
Proof. intros H. unfold ncol. rewrite get_col_keyed by auto. reflexivity. Qed.

Lemma rotated_eq A p ks sfx n : pset_ok p -> incl pos_vel ks ->
  rotated A (mkDf n (keyed (pcol p) ks)) sfx =
  Ok [(("x_" ++ sfx)%string, KArr (map3 (rot_x A) (p_x p) (p_y p) (p_z p)));
      (("y_" ++ sfx)%string, KArr (map3 (rot_y A) (p_x p) (p_y p) (p_z p)));
      (("z_" ++ sfx)%string, KArr (map3 (rot_z A) (p_x p) (p_y p) (p_z p)));
      (("vx_" ++ sfx)%string, KArr (map3 (rot_x A) (p_vx p) (p_vy p) (p_vz p)));
      (("vy_" ++ sfx)%string, KArr (map3 (rot_y A) (p_vx p) (p_vy p) (p_vz p)));
      (("vz_" ++ sfx)%string, KArr (map3 (rot_z A) (p_vx p) (p_vy p) (p_vz p)))].
Proof.
  intros Hp Hi. unfold rotated.
  rewrite !ncol_pcol by (apply Hi; simpl; tauto). cbn [bind].
  rewrite pcol_num_x, pcol_num_y, pcol_num_z, pcol_num_vx, pcol_num_vy, pcol_num_vz by auto.
  reflexivity.
Qed.

Lemma pv_df p l : pset_ok p -> incl l all_attributes -> In "x"%string l ->
  pset_to_df p (Some l) = Ok (mkDf (plen p) (keyed (pcol p) (dedup [] l))).
Proof.
  intros Hp Hi Hx. apply (pset_to_df_ok p (Some l)); auto.
  simpl. apply existsb_exists. exists "x"%string. split; [auto|reflexivity].
Qed.

Lemma rot_lens A p : pset_ok p ->
  lens_ok (p_m p)
    (map3 (rot_x A) (p_x p) (p_y p) (p_z p)) (map3 (rot_y A) (p_x p) (p_y p) (p_z p))
    (map3 (rot_z A) (p_x p) (p_y p) (p_z p))
    (map3 (rot_x A) (p_vx p) (p_vy p) (p_vz p)) (map3 (rot_y A) (p_vx p) (p_vy p) (p_vz p))
    (map3 (rot_z A) (p_vx p) (p_vy p) (p_vz p)) (p_pot p).
Proof.
  intros H. pose proof (pset_ok_lens _ H) as (A1 & B & C & D & E & F & G).
  repeat split; rewrite ?map3_length by lia; auto.
Qed.
Lemma rot_set_ok A p : pset_ok p -> pset_ok (rot_set A p).
Proof. intros H. apply pset_ok_iff. split; [|reflexivity]. exact (rot_lens A p H). Qed.
Lemma rot_gal_ok A g : gal_ok g -> gal_ok (rot_gal A g).
Proof.
  intros H. pose proof (isSome_pots g H) as (Is & Id & Ig).
  apply gal_ok_facts in H as [gf_s0 gf_d0 gf_g0 gf_ts0 gf_td0 gf_tg0 gf_hs0 gf_hd0 gf_hg0].
  apply gal_ok_facts. constructor; simpl; auto using rot_set_ok.
Qed.

Definition cut_ok (c : option N) : bool := match c with Some c => negb (nle c n0) | None => true end.

Lemma star_align_eq g c : gal_ok g ->
  star_align g c = if cut_ok c then Ok (rot_gal (gal_matrix g c) g) else Raise ValueError.
Proof.
  intros Hg. unfold star_align. fold (cut_ok c). destruct (cut_ok c); [|reflexivity]. cbn [guard bind].
  pose proof (isSome_pots g Hg) as (Is & Id & Ig).
  apply gal_ok_facts in Hg as F. destruct F as [gf_s0 gf_d0 gf_g0 gf_ts0 gf_td0 gf_tg0 gf_hs0 gf_hd0 gf_hg0].
  assert (I1 : incl pos_vel all_attributes) by (intros k Hk; simpl in Hk; cbv; intuition).
  assert (I2 : incl (["m"; "Jx"; "Jy"; "Jz"]%string ++ pos_vel) all_attributes)
    by (intros k Hk; simpl in Hk; cbv; intuition).
  rewrite (pv_df _ _ gf_s0 I2) by (simpl; tauto).
  rewrite (pv_df _ _ gf_d0 I1) by (simpl; tauto). rewrite (pv_df _ _ gf_g0 I1) by (simpl; tauto).
  cbn [bind]. rewrite !ncol_pcol by (apply dedup_In; simpl; tauto). cbn [bind].
  rewrite pcol_num_m, pcol_num_x, pcol_num_y, pcol_num_z, pcol_num_Jx, pcol_num_Jy, pcol_num_Jz by auto.
  fold (gal_matrix g c). generalize (gal_matrix g c). intros A.
  rewrite !rotated_eq by (auto; intros k Hk; apply dedup_In; simpl in *; tauto). cbn [bind].
  rewrite as_kwargs_kw3.
  pose (uu := fun p => mkUpd (p_m p)
    (map3 (rot_x A) (p_x p) (p_y p) (p_z p)) (map3 (rot_y A) (p_x p) (p_y p) (p_z p))
    (map3 (rot_z A) (p_x p) (p_y p) (p_z p))
    (map3 (rot_x A) (p_vx p) (p_vy p) (p_vz p)) (map3 (rot_y A) (p_vx p) (p_vy p) (p_vz p))
    (map3 (rot_z A) (p_vx p) (p_vy p) (p_vz p)) (p_pot p) (p_soft p)).
  match goal with |- mkgalaxy ?k = _ =>
    replace k with (kw3 (uu (g_stars g)) (uu (g_dm g)) (uu (g_gas g))) by reflexivity end.
  assert (L : forall p, pset_ok p -> upd_lens (uu p)) by (intros p Hp; exact (rot_lens A p Hp)).
  rewrite mkgalaxy_kw3, build_ok; simpl; try congruence; auto.
  f_equal. unfold rot_gal, rot_set. rewrite gf_ts0, gf_td0, gf_tg0.
  unfold pset_upd; simpl. f_equal. congruence.
Qed.

(** The matrix is a function of the stars inside the cut-off. *)
Lemma near_sums (f : N -> N -> N) p c : pset_ok p ->
  bmask (make_mask (p_x p) (p_y p) (p_z p) c) (map2 f (p_m p) (p_Jx p)) = map (fun s => f (s_m s) (s_jx s)) (near c p) /\
  bmask (make_mask (p_x p) (p_y p) (p_z p) c) (map2 f (p_m p) (p_Jy p)) = map (fun s => f (s_m s) (s_jy s)) (near c p) /\
  bmask (make_mask (p_x p) (p_y p) (p_z p) c) (map2 f (p_m p) (p_Jz p)) = map (fun s => f (s_m s) (s_jz s)) (near c p).
Proof.
  intros Hp. pose proof (pset_ok_lengths _ Hp) as (A & B & C & _ & _ & _ & _ & D & E & F & _).
  unfold near, stars_of, make_mask, plen in *.
  revert A B C D E F.
  generalize (p_m p) (p_x p) (p_y p) (p_z p) (p_Jx p) (p_Jy p) (p_Jz p). clear p Hp.
  unfold map3, radius.
  induction l as [|m0 m IH]; intros [|x0 x] [|y0 y] [|z0 z] [|a0 a] [|b0 b] [|c0 c']; simpl; try discriminate; intros.
  - destruct c; auto.
  - destruct (IH x y z a b c') as (I1 & I2 & I3); try lia.
    destruct c as [c|]; simpl in *.
    + match goal with |- context [nlt ?a c] => destruct (nlt a c) end; simpl; rewrite I1, I2, I3; auto.
    + rewrite I1, I2, I3; auto.
Qed.

Lemma gal_matrix_near g c : gal_ok g ->
  gal_matrix g c = rot_of (nsum (map (fun s => s_m s * s_jx s)%num (near c (g_stars g))))
                          (nsum (map (fun s => s_m s * s_jy s)%num (near c (g_stars g))))
                          (nsum (map (fun s => s_m s * s_jz s)%num (near c (g_stars g)))).
Proof.
  intros Hg. apply gal_ok_facts in Hg as [gf_s0 gf_d0 gf_g0 gf_ts0 gf_td0 gf_tg0 gf_hs0 gf_hd0 gf_hg0].
  unfold gal_matrix, get_rot_matrix.
  destruct (near_sums nmul (g_stars g) c gf_s0) as (-> & -> & ->). reflexivity.
Qed.

Lemma rot_set_turned (A : mat3 N) p : pset_ok p ->
  turned (a11 A) (a12 A) (a13 A) (a21 A) (a22 A) (a23 A) (a31 A) (a32 A) (a33 A) p (rot_set A p).
Proof.
  intros Hp. split; [|split].
  - unfold same_but_phase, rot_set, plen; simpl. rewrite (pset_ok_haspot _ Hp). repeat split.
  - apply constructible_set_ok, rot_set_ok, Hp.
  - intros i x y z vx vy vz X Y Z VX VY VZ. simpl.
    rewrite !map3_nth, X, Y, Z, VX, VY, VZ. repeat split.
Qed.

Lemma is_star_aligned_eq g c rtol atol : gal_ok g ->
  let s := near c (g_stars g) in
  let jx := nsum (map (fun s => s_jx s * s_m s)%num s) in
  let jy := nsum (map (fun s => s_jy s * s_m s)%num s) in
  let jz := nsum (map (fun s => s_jz s * s_m s)%num s) in
  is_star_aligned g c rtol atol = Ok (isclose rtol atol jz (nsqrt ((jx * jx + jy * jy) + jz * jz))%num).
Proof.
  intros Hg. apply gal_ok_facts in Hg as [gf_s0 gf_d0 gf_g0 gf_ts0 gf_td0 gf_tg0 gf_hs0 gf_hd0 gf_hg0].
  unfold is_star_aligned.
  rewrite pv_df; [|auto|intros k Hk; simpl in Hk; cbv; intuition|simpl; tauto].
  cbn [bind]. rewrite !ncol_pcol by (apply dedup_In; simpl; tauto). cbn [bind].
  rewrite pcol_num_m, pcol_num_x, pcol_num_y, pcol_num_z, pcol_num_Jx, pcol_num_Jy, pcol_num_Jz by auto.
  assert (M : forall mask (a b : list N), map2 nmul (bmask mask a) (bmask mask b) =
     bmask mask (map2 (fun x y => nmul y x) b a)).
  { clear. induction mask as [|[] mask IH]; intros [|a0 a] [|b0 b]; simpl; auto; try congruence.
    now destruct (bmask mask a). }
  rewrite !M.
  destruct (near_sums (fun x y => nmul y x) (g_stars g) c gf_s0) as (-> & -> & ->). reflexivity.
Qed.

End AlignFacts.
