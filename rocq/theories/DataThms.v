(** Property lemmas about data.py: C01 - C07. *)
From Verif Require Import Py Num RX F64 Np Df Data DataFacts DfFacts RebuildFacts CenterFacts Spec Ex.

Lemma constructible_set_ok {N : Num} (p : pset N) : constructible_set p <-> pset_ok p.
Proof.
  split.
  - intros (t & m & x & y & z & vx & vy & vz & pot & s & H). eapply mk_pset_pset_ok; eauto.
  - intros H. repeat eexists. exact H.
Qed.

Lemma constructible_ok {N : Num} (g : galaxy N) : constructible g <-> gal_ok g.
Proof.
  split.
  - intros (s & d & q & A & B & C & H). apply constructible_set_ok in A, B, C.
    exact (gal_ok_mk _ _ _ _ A B C H).
  - intros (A & B & C & H). exists (g_stars g), (g_dm g), (g_gas g).
    rewrite !constructible_set_ok. auto.
Qed.

(** *** C01 *)

Lemma ofZ_small_inj {N : Num} (RN : Rounded N) (x : N) a b :
  (Z.abs a <= 1024)%Z -> (Z.abs b <= 1024)%Z ->
  neqb x (nofZ a) = true -> neqb x (nofZ b) = true -> a = b.
Proof.
  intros Ha Hb H1 H2. apply (neqb_iff RN) in H1 as [H1 _], H2 as [H2 _].
  rewrite H1 in H2. rewrite !val_small in H2 by auto. injection H2 as H2. now apply eq_IZR.
Qed.

(** [mktype] returns exactly the type its argument denotes and raises ValueError on
    every value that denotes none. *)
Lemma c01_mktype : forall (N : Num) (RN : Rounded N) (v : pyval N),
  (forall p, mktype v = Ok p <-> denotes v p) /\
  ((forall p, ~ denotes v p) <-> mktype v = Raise ValueError).
Proof.
  intros N RN v.
  assert (A : forall p, mktype v = Ok p <-> denotes v p).
  { intros p. split.
    - unfold mktype. destruct v as [|b|z|x|s|q|].
      + discriminate.
      + destruct b; intros H; injection H as <-; constructor.
      + cbn [find ptypes_all py_matches]. 
        destruct (Z.eqb_spec z (ptype_value STARS)) as [->|]; [intros [= <-]; constructor|].
        destruct (Z.eqb_spec z (ptype_value DARK_MATTER)) as [->|]; [intros [= <-]; constructor|].
        destruct (Z.eqb_spec z (ptype_value GAS)) as [->|]; [intros [= <-]; constructor|discriminate].
      + cbn [find ptypes_all py_matches].
        destruct (neqb x _) eqn:E1; [intros [= <-]; now constructor|].
        destruct (neqb x (nofZ (ptype_value DARK_MATTER))) eqn:E2; [intros [= <-]; now constructor|].
        destruct (neqb x (nofZ (ptype_value GAS))) eqn:E3; [intros [= <-]; now constructor|discriminate].
      + change (mktype (N:=N) (PyStr s) = Ok p -> denotes (N:=N) (PyStr s) p). rewrite mktype_str.
        destruct (String.eqb_spec (upper s) "STARS"); [intros [= <-]; now constructor|].
        destruct (String.eqb_spec (upper s) "DARK_MATTER"); [intros [= <-]; now constructor|].
        destruct (String.eqb_spec (upper s) "GAS"); [intros [= <-]; now constructor|discriminate].
      + intros [= <-]; constructor.
      + discriminate.
    - intros H; destruct H as [p|p|b|x p H|s p H].
      + reflexivity.
      + destruct p; reflexivity.
      + destruct b; reflexivity.
      + unfold mktype. cbn [find ptypes_all py_matches].
        assert (Q : forall q, neqb x (nofZ (ptype_value q)) = ptype_eqb q p).
        { intros q. destruct (neqb x (nofZ (ptype_value q))) eqn:E.
          - symmetry. apply Z.eqb_eq. eapply (ofZ_small_inj RN); eauto; [destruct q|destruct p]; simpl; lia.
          - symmetry. destruct (ptype_eqb q p) eqn:E'; [|reflexivity].
            apply ptype_eqb_eq in E'. congruence. }
        rewrite !Q. destruct p; reflexivity.
      + rewrite mktype_str, H. destruct p; reflexivity. }
  split; [exact A|]. split.
  - intros H. destruct (mktype v) as [p|e] eqn:E; [exfalso; apply (H p), A; reflexivity|].
    clear A H. revert E. unfold mktype. destruct v; try discriminate;
      match goal with |- context [find ?f ?l] => destruct (find f l) end; congruence.
  - intros H p Hp. apply A in Hp. congruence.
Qed.

(** Names, values and humanised names are inverted; letter case is irrelevant. *)
Lemma c01_inverse : forall (N : Num) (p : ptype),
  mktype (N:=N) (PyType p) = Ok p /\ mktype (N:=N) (PyInt (ptype_value p)) = Ok p /\
  mktype (N:=N) (PyStr (ptype_name p)) = Ok p /\ mktype (N:=N) (PyStr (humanize p)) = Ok p /\
  (forall s t, upper s = upper t -> mktype (N:=N) (PyStr s) = mktype (N:=N) (PyStr t)).
Proof.
  intros N p. repeat split; try (destruct p; reflexivity).
  intros s t H. rewrite !mktype_str, H. reflexivity.
Qed.

Example ex_c01 : denotes (N:=F64) (PyStr "Dark_Matter") DARK_MATTER /\
  mktype (N:=F64) (PyStr "Dark_Matter") = Ok DARK_MATTER /\
  mktype (N:=F64) (PyStr "1") = Raise ValueError /\
  mktype (N:=F64) PyNone = Raise ValueError.
Proof. split; [apply den_str; reflexivity|]. vm_compute. auto. Qed.

(** *** C02 *)

(** The constructor accepts exactly inputs of one common length; otherwise ValueError. *)
Lemma c02_constructor : forall (N : Num) t (m x y z vx vy vz : list N) pot soft,
  let same := Forall (fun l => length l = length m)
                (x :: y :: z :: vx :: vy :: vz :: match pot with Some p => [p] | None => [] end) in
  (same <-> exists p, mk_pset t m x y z vx vy vz pot soft = Ok p) /\
  (~ same <-> mk_pset t m x y z vx vy vz pot soft = Raise ValueError).
Proof.
  intros N t m x y z vx vy vz pot soft same.
  assert (S : same <-> lens_ok m x y z vx vy vz pot).
  { unfold same, lens_ok. rewrite !Forall_cons_iff. destruct pot as [p|].
    - rewrite Forall_cons_iff. split.
      + intros (A & B & C & D & E & F & G & _). repeat split; auto. intros q [= <-]; auto.
      + intros (A & B & C & D & E & F & G). repeat split; auto.
    - split; [intros (A & B & C & D & E & F & _); repeat split; auto; intros q; discriminate|].
      intros (A & B & C & D & E & F & G). repeat split; auto. }
  destruct (mk_pset t m x y z vx vy vz pot soft) as [p|e] eqn:E.
  - pose proof (mk_pset_lens _ _ _ _ _ _ _ _ _ _ _ E) as [L _]. apply S in L.
    split; split; auto; try discriminate; eauto. intros Hn; contradiction.
  - assert (~ same) as Hn. { intros L. apply S in L. rewrite mk_pset_ok in E by auto. discriminate. }
    apply mk_pset_raise in E as ->.
    split; split; auto; try contradiction. intros (p & Hp); discriminate.
Qed.

(** What is stored: the inputs unchanged, and derived arrays of the same length. *)
Lemma c02_stored : forall (N : Num) t (m x y z vx vy vz : list N) pot soft p,
  mk_pset t m x y z vx vy vz pot soft = Ok p ->
  p_type p = t /\ p_m p = m /\ p_x p = x /\ p_y p = y /\ p_z p = z /\
  p_vx p = vx /\ p_vy p = vy /\ p_vz p = vz /\ p_pot p = pot /\ p_soft p = soft /\
  (p_haspot p = true <-> exists l, pot = Some l) /\ plen p = length m /\
  Forall (fun l => length l = length m) [p_ke p; p_Jx p; p_Jy p; p_Jz p] /\
  (forall l, p_te p = Some l -> length l = length m) /\
  (p_te p = None <-> pot = None).
Proof.
  intros N t m x y z vx vy vz pot soft p H.
  pose proof (mk_pset_pset_ok _ _ _ _ _ _ _ _ _ _ _ H) as Hp.
  pose proof (pset_ok_lengths _ Hp) as (A & B & C & D & E & F & G & I & J & K & L & M).
  pose proof (mk_pset_lens _ _ _ _ _ _ _ _ _ _ _ H) as [_ ->].
  unfold plen in *; simpl in *.
  repeat split; auto.
  - destruct pot; [eauto|discriminate].
  - intros [l ->]; reflexivity.
  - destruct pot; [discriminate|reflexivity].
  - intros ->; reflexivity.
Qed.

Example ex_c02_ok : exists p, (zset STARS [1; 2] [1; 2] [1; 2] [1; 2] [1; 2] [1; 2] [1; 2] (Some [1; 2]) 0)%Z = Ok p.
Proof. apply is_ok_ex. vm_compute. reflexivity. Qed.
(** numpy would broadcast the length-1 velocity, the constructor still refuses it. *)
Example ex_c02_broadcast : (zset STARS [1; 2] [1; 2] [1; 2] [1; 2] [1] [1; 2] [1; 2] None 0)%Z = Raise ValueError.
Proof. apply exn_of_raise. vm_compute. reflexivity. Qed.

(** *** C03 *)

Lemma map3'_nth {A B C D} (f : A -> B -> C -> D) a b c i :
  nth_error (map3' f a b c) i =
  match nth_error a i, nth_error b i, nth_error c i with
  | Some x, Some y, Some z => Some (f x y z) | _, _, _ => None end.
Proof.
  unfold map3'. rewrite !map2_nth. destruct (nth_error a i), (nth_error b i), (nth_error c i); reflexivity.
Qed.
Lemma map4_nth {A B C D E} (f : A -> B -> C -> D -> E) a b c d i :
  nth_error (map4 f a b c d) i =
  match nth_error a i, nth_error b i, nth_error c i, nth_error d i with
  | Some x, Some y, Some z, Some w => Some (f x y z w) | _, _, _, _ => None end.
Proof.
  unfold map4. rewrite !map2_nth.
  destruct (nth_error a i), (nth_error b i), (nth_error c i), (nth_error d i); reflexivity.
Qed.

(** Energies and angular momentum of particle [i] come from particle [i] alone, in the
    documented operation order, in any arithmetic. *)
Lemma c03_derived : forall (N : Num) (p : pset N) i x y z vx vy vz,
  constructible_set p ->
  nth_error (p_x p) i = Some x -> nth_error (p_y p) i = Some y -> nth_error (p_z p) i = Some z ->
  nth_error (p_vx p) i = Some vx -> nth_error (p_vy p) i = Some vy -> nth_error (p_vz p) i = Some vz ->
  nth_error (p_ke p) i = Some (nlit 1 2 * (vx * vx + vy * vy + vz * vz))%num /\
  nth_error (p_Jx p) i = Some (y * vz - z * vy)%num /\
  nth_error (p_Jy p) i = Some (z * vx - x * vz)%num /\
  nth_error (p_Jz p) i = Some (x * vy - y * vx)%num /\
  (p_pot p = None -> p_te p = None) /\
  (forall pot u, p_pot p = Some pot -> nth_error pot i = Some u ->
     exists te, p_te p = Some te /\
       nth_error te i = Some (nlit 1 2 * (vx * vx + vy * vy + vz * vz) + u)%num).
Proof.
  intros N p i x y z vx vy vz Hp Hx Hy Hz Hvx Hvy Hvz. apply constructible_set_ok in Hp.
  rewrite (pset_ok_te _ Hp), (pset_ok_Jx _ Hp), (pset_ok_Jy _ Hp), (pset_ok_Jz _ Hp), (pset_ok_ke _ Hp).
  rewrite !map4_nth, !map3'_nth, Hx, Hy, Hz, Hvx, Hvy, Hvz.
  repeat split; auto.
  - intros ->; reflexivity.
  - intros pot u Hpot Hu. rewrite Hpot. eexists; split; [reflexivity|].
    rewrite map2_nth, map3'_nth, Hvx, Hvy, Hvz, Hu. reflexivity.
Qed.

(** In exact arithmetic, on finite data: J is orthogonal to position and velocity and
    the kinetic energy is half the squared speed, hence non-negative. *)
Lemma c03_physics : forall (p : pset RX) i x y z vx vy vz,
  constructible_set p ->
  nth_error (p_x p) i = Some (XR x) -> nth_error (p_y p) i = Some (XR y) -> nth_error (p_z p) i = Some (XR z) ->
  nth_error (p_vx p) i = Some (XR vx) -> nth_error (p_vy p) i = Some (XR vy) -> nth_error (p_vz p) i = Some (XR vz) ->
  exists jx jy jz ke,
    nth_error (p_Jx p) i = Some (XR jx) /\ nth_error (p_Jy p) i = Some (XR jy) /\
    nth_error (p_Jz p) i = Some (XR jz) /\ nth_error (p_ke p) i = Some (XR ke) /\
    (jx * x + jy * y + jz * z = 0 /\ jx * vx + jy * vy + jz * vz = 0 /\
     jx * jx + jy * jy + jz * jz =
       (x*x + y*y + z*z) * (vx*vx + vy*vy + vz*vz) - (x*vx + y*vy + z*vz) * (x*vx + y*vy + z*vz) /\
     ke = (vx*vx + vy*vy + vz*vz) / 2 /\ 0 <= ke)%R.
Proof.
  intros p i x y z vx vy vz Hp Hx Hy Hz Hvx Hvy Hvz.
  pose proof (c03_derived RX p i _ _ _ _ _ _ Hp Hx Hy Hz Hvx Hvy Hvz) as (A & B & C & D & _).
  simpl in A. unfold xsub, xdiv in *; simpl in *.
  destruct (Req_EM_T 2 0) as [E|E]; [lra|]. simpl in A.
  exists (y * vz + - (z * vy))%R, (z * vx + - (x * vz))%R, (x * vy + - (y * vx))%R,
    (1 / 2 * (vx * vx + vy * vy + vz * vz))%R.
  split; [exact B|]. split; [exact C|]. split; [exact D|]. split; [exact A|].
  repeat split; try ring; try field. nra.
Qed.

Example ex_c03 : exists p, (zset STARS [1] [1] [2] [3] [4] [5] [6] (Some [-100]) 0)%Z = Ok p /\
  (shows (p_Jx p), shows (p_Jy p), shows (p_Jz p), oshow (p_te p)) =
  ([sZ (-3)], [sZ 6], [sZ (-3)], Some [sQ (-123) 2]).
Proof. apply ok_sat. vm_compute. reflexivity. Qed.

(** *** C04 *)

(** Galaxy construction: mixed potentials are a ValueError, otherwise a misplaced set is
    a TypeError, otherwise the galaxy is built and knows whether it has a potential. *)
Lemma c04_galaxy : forall (N : Num) (s d q : pset N),
  let mixed := ~ (p_haspot s = p_haspot d /\ p_haspot d = p_haspot q) in
  let typed := p_type s = STARS /\ p_type d = DARK_MATTER /\ p_type q = GAS in
  (mk_galaxy s d q = Raise ValueError <-> mixed) /\
  (mk_galaxy s d q = Raise TypeError <-> ~ mixed /\ ~ typed) /\
  (forall g, mk_galaxy s d q = Ok g <->
     (~ mixed /\ typed /\ g_stars g = s /\ g_dm g = d /\ g_gas g = q /\
      g_haspot g = p_haspot s)).
Proof.
  intros N s d q mixed typed.
  assert (T : {typed} + {~ typed}).
  { unfold typed. destruct (p_type s), (p_type d), (p_type q);
      try (right; intros (? & ? & ?); discriminate). left; auto. }
  destruct (bool_dec (p_haspot s) (p_haspot d)) as [E1|E1];
    [destruct (bool_dec (p_haspot d) (p_haspot q)) as [E2|E2]|].
  - assert (~ mixed) as Hm by (unfold mixed; tauto).
    destruct T as [T|T].
    + pose proof T as (T1 & T2 & T3).
      rewrite mk_galaxy_ok by congruence. repeat split; try discriminate; try tauto.
      * injection H as <-; reflexivity.
      * injection H as <-; reflexivity.
      * injection H as <-; reflexivity.
      * injection H as <-; reflexivity.
      * intros (_ & _ & <- & <- & <- & <-). destruct g; reflexivity.
    + assert (mk_galaxy s d q = Raise TypeError) as ->.
      { unfold mk_galaxy. rewrite E1, <- E2.
        destruct (ptype_eqb (p_type s) STARS) eqn:A; [|destruct (p_haspot d); reflexivity].
        destruct (ptype_eqb (p_type d) DARK_MATTER) eqn:B; [|destruct (p_haspot d); reflexivity].
        destruct (ptype_eqb (p_type q) GAS) eqn:C; [|destruct (p_haspot d); reflexivity].
        apply ptype_eqb_eq in A, B, C. exfalso; apply T; unfold typed; auto. }
      repeat split; try discriminate; try tauto.
  - assert (mk_galaxy s d q = Raise ValueError) as ->.
    { unfold mk_galaxy. rewrite E1. destruct (p_haspot d), (p_haspot q); try congruence; reflexivity. }
    assert mixed by (unfold mixed; tauto).
    repeat split; try discriminate; try tauto.
  - assert (mk_galaxy s d q = Raise ValueError) as ->.
    { unfold mk_galaxy. destruct (p_haspot s), (p_haspot d), (p_haspot q); try congruence; reflexivity. }
    assert mixed by (unfold mixed; tauto).
    repeat split; try discriminate; try tauto.
Qed.

(** [mkgalaxy] called with all required arrays (and well-typed optional ones) never
    raises TypeError: it only fails, with ValueError, for unequal lengths or mixed potentials. *)
Lemma c04_mkgalaxy_no_typeerror : forall (N : Num) (us ud uq : upd9 N) e,
  mkgalaxy (kw3 us ud uq) = Raise e -> e = ValueError.
Proof.
  intros N us ud uq e H. rewrite mkgalaxy_kw3 in H. unfold build in H.
  apply bind_raise in H as [H|(s & Hs & H)]; [now apply mk_pset_raise in H|].
  apply bind_raise in H as [H|(d & Hd & H)]; [now apply mk_pset_raise in H|].
  apply bind_raise in H as [H|(q & Hq & H)]; [now apply mk_pset_raise in H|].
  pose proof (mk_pset_lens _ _ _ _ _ _ _ _ _ _ _ Hs) as [_ ->].
  pose proof (mk_pset_lens _ _ _ _ _ _ _ _ _ _ _ Hd) as [_ ->].
  pose proof (mk_pset_lens _ _ _ _ _ _ _ _ _ _ _ Hq) as [_ ->].
  unfold mk_galaxy in H. simpl in H.
  destruct (u_pot us), (u_pot ud), (u_pot uq); simpl in H; congruence.
Qed.

Definition mkset1 (t : ptype) (pot : option Z) (k : Z) : res (pset F64) :=
  (zset t [k] [k + 1] [k - 2] [3] [k] [5] [6] (option_map (fun p => [p]) pot) 0)%Z.
Definition gal3 (ps pd pg : option Z) : res (galaxy F64) :=
  do s <- mkset1 STARS ps 1; do d <- mkset1 DARK_MATTER pd 2; do q <- mkset1 GAS pg 3; mk_galaxy s d q.

Example ex_c04 : is_ok (gal3 (Some (-5)%Z) (Some (-4)%Z) (Some (-3)%Z)) = true /\
  gal3 (Some (-5)%Z) None (Some (-3)%Z) = Raise ValueError /\
  (do s <- mkset1 GAS None 1; do d <- mkset1 DARK_MATTER None 2; do q <- mkset1 STARS None 3;
   mk_galaxy s d q) = Raise TypeError.
Proof. rewrite <- !exn_of_raise. vm_compute. auto. Qed.

(** *** C05 *)

Lemma c05_round_trip : forall (N : Num) (g : galaxy N),
  constructible g -> mkgalaxy (galaxy_as_kwargs g) = Ok g.
Proof. intros N g H. apply mkgalaxy_as_kwargs. now apply constructible_ok. Qed.

(** The dictionary has exactly the 27 parameters of [mkgalaxy]. *)
Lemma c05_keys : forall (N : Num) (g : galaxy N),
  NoDup (dkeys (galaxy_as_kwargs g)) /\ length (galaxy_as_kwargs g) = 27%nat /\
  (forall k, In k (dkeys (galaxy_as_kwargs g)) <->
     exists a s, k = (a ++ "_" ++ s)%string /\
       In a ["m"; "x"; "y"; "z"; "vx"; "vy"; "vz"; "potential"; "softening"]%string /\
       In s ["s"; "dm"; "g"]%string).
Proof.
  intros N g. rewrite as_kwargs_kw3. split; [|split; [reflexivity|]].
  - cbv [kw3 kw1 app dkeys map fst].
    repeat constructor; simpl; intuition discriminate.
  - intros k. split.
    + cbv [kw3 kw1 app dkeys map fst].
      intros H; simpl in H.
      repeat (destruct H as [<-|H];
        [ match goal with |- exists a s, ?k = _ /\ _ => 
            (exists "m"%string + exists "x"%string + exists "y"%string + exists "z"%string + exists "vx"%string
             + exists "vy"%string + exists "vz"%string + exists "potential"%string + exists "softening"%string);
            (exists "s"%string + exists "dm"%string + exists "g"%string);
            split; [reflexivity|simpl; intuition fail] end |]); contradiction.
    + intros (a & s & -> & Ha & Hs). simpl in Ha, Hs.
      repeat destruct Ha as [<-|Ha]; try contradiction;
      repeat destruct Hs as [<-|Hs]; try contradiction; simpl; intuition fail.
Qed.

Example ex_c05 : exists g, gal3 (Some (-5)%Z) (Some (-4)%Z) (Some (-3)%Z) = Ok g /\
  rmap gshow (mkgalaxy (galaxy_as_kwargs g)) = Ok (gshow g).
Proof. apply ok_sat. vm_compute. reflexivity. Qed.

(** *** C06, C07 *)

Lemma substring_split : forall m n s, (m + n <= String.length s)%nat ->
  s = (substring 0 m s ++ substring m n s ++ substring (m + n) (String.length s - (m + n)) s)%string.
Proof.
  induction m as [|m IH]; intros n s H.
  - simpl. assert (substring 0 0 s = ""%string) as -> by (destruct s; reflexivity). simpl.
    revert s H. induction n as [|n IHn]; intros s H.
    + assert (substring 0 0 s = ""%string) as -> by (destruct s; reflexivity). simpl.
      rewrite Nat.sub_0_r. clear H. induction s; simpl; congruence.
    + destruct s as [|c s]; simpl in *; [lia|]. f_equal. apply IHn. lia.
  - destruct s as [|c s]; simpl in *; [lia|]. f_equal. apply IH. lia.
Qed.
Lemma substring_app a h b : substring (String.length a) (String.length h) (a ++ h ++ b) = h.
Proof.
  induction a as [|c a IH]; simpl; [|exact IH].
  induction h as [|c h IH]; simpl; [destruct b; reflexivity|congruence].
Qed.
Lemma substring_len m n s : String.length (substring m n s) = n -> (n = 0 \/ m + n <= String.length s)%nat.
Proof.
  revert m n. induction s as [|c s IH]; intros m n; simpl.
  - destruct m, n; simpl; intros; lia.
  - destruct m as [|m].
    + destruct n; simpl; [lia|]. intros H. injection H as H. apply IH in H. lia.
    + intros H. apply IH in H. lia.
Qed.
Lemma is_substring_iff h s : h <> ""%string ->
  is_substring h s = true <-> exists a b, s = (a ++ h ++ b)%string.
Proof.
  intros Hh. unfold is_substring. destruct (String.index 0 h s) as [m|] eqn:E.
  - split; [|reflexivity]. intros _. apply index_correct1 in E.
    assert (L := f_equal String.length E). apply substring_len in L as [L|L].
    { destruct h; [congruence|discriminate]. }
    exists (substring 0 m s), (substring (m + String.length h) (String.length s - (m + String.length h)) s).
    pose proof (substring_split _ _ _ L) as Q. rewrite E in Q. exact Q.
  - split; [discriminate|]. intros (a & b & ->). exfalso.
    refine (index_correct3 0 (String.length a) _ _ E Hh _ (substring_app _ _ _)). lia.
Qed.

Lemma selected_iff {N : Num} sel (p : pset N) : selected sel p = true <-> wanted sel p.
Proof.
  destruct sel as [|l|s]; simpl; [tauto|apply smem_In|].
  apply is_substring_iff. destruct (p_type p); discriminate.
Qed.
Lemma keep_selected {N : Num} sel (keep : pset N -> bool) :
  (forall p, keep p = true <-> wanted sel p) -> forall l, filter keep l = filter (selected sel) l.
Proof.
  intros H l. apply filter_ext. intros p. apply eq_true_iff_eq. rewrite H. symmetry. apply selected_iff.
Qed.

Lemma requested_attrs a : requested a = attrs_of a.
Proof. destruct a; reflexivity. Qed.

Lemma is_array_scalar {N : Num} (p : pset N) k : pset_ok p -> known_attr k ->
  is_array p k = false <-> scalar_attr (p_haspot p) k.
Proof.
  intros Hp Hk. rewrite (pset_ok_haspot _ Hp). unfold is_array, maker, scalar_attr.
  assert (T : p_te p = None <-> p_pot p = None).
  { rewrite (pset_ok_te _ Hp). destruct (p_pot p); simpl; split; congruence. }
  unfold known_attr in Hk; simpl in Hk.
  repeat destruct Hk as [<-|Hk]; try contradiction; simpl;
    try (destruct (p_pot p), (p_te p); simpl; intuition congruence).
Qed.

Lemma pcol_attr {N : Num} (p : pset N) k i : pset_ok p -> known_attr k -> (i < plen p)%nat ->
  nth_error (pcol p k) i = attr_value p k i /\ attr_value p k i <> None.
Proof.
  intros Hp Hk Hi.
  assert (A : nth_error (pcol p k) i = attr_value p k i).
  { unfold pcol, maker, known_attr in *; simpl in Hk.
    repeat destruct Hk as [<-|Hk]; try contradiction; simpl; unfold attr_value; simpl;
      try (now rewrite nth_error_map); try (now apply nth_error_repeat).
    - destruct (p_pot p); simpl; [now rewrite nth_error_map|now apply nth_error_repeat].
    - destruct (p_te p); simpl; [now rewrite nth_error_map|now apply nth_error_repeat]. }
  split; [exact A|]. rewrite <- A. apply nth_error_Some. now rewrite pcol_length.
Qed.

Lemma nth_error_flat_map {A B} (f : A -> list B) l1 x l2 i :
  (i < length (f x))%nat ->
  nth_error (flat_map f (l1 ++ x :: l2)) (list_sum (map (fun a => length (f a)) l1) + i) = nth_error (f x) i.
Proof.
  intros Hi. induction l1 as [|a l1 IH]; simpl.
  - now rewrite nth_error_app1.
  - rewrite nth_error_app2 by lia. rewrite <- IH. f_equal. lia.
Qed.

Lemma first_occ_app seen l :
  dedup seen l = filter (fun k => negb (smem k seen)) (rev (nodup string_dec (rev l))).
Proof.
  revert seen. induction l as [|k l IH] using rev_ind; intros seen; [reflexivity|].
  rewrite rev_app_distr. simpl.
  rewrite dedup_app, IH. simpl.
  destruct (in_dec string_dec k (rev l)) as [Hk|Hk].
  - assert (smem k (rev l ++ seen) = true) as -> by (apply smem_In, in_or_app; auto).
    now rewrite app_nil_r.
  - simpl. rewrite filter_app. f_equal. simpl.
    destruct (smem k seen) eqn:E.
    + assert (smem k (rev l ++ seen) = true) as ->; [|reflexivity].
      apply smem_In, in_or_app; right. now apply smem_In.
    + assert (smem k (rev l ++ seen) = false) as ->; [|reflexivity].
      apply smem_false. intros H. apply in_app_or in H as [H|H]; [contradiction|].
      apply smem_In in H. congruence.
Qed.
Lemma dedup_first l : dedup [] l = first_occurrences l.
Proof.
  rewrite first_occ_app. unfold first_occurrences.
  generalize (rev (nodup string_dec (rev l))). intros l'.
  induction l' as [|k l' IH]; [reflexivity|]. simpl. f_equal. exact IH.
Qed.

(** Outcome of [to_df] in every case. *)
Lemma to_df_cases {N : Num} (g : galaxy N) sel a : gal_ok g ->
  let kept := filter (selected sel) (psets g) in
  (kept = [] -> to_df g sel a = Raise ValueError) /\
  (kept <> [] -> ~ incl (attrs_of a) all_attributes -> to_df g sel a = Raise KeyError) /\
  (kept <> [] -> a = Some [] -> to_df g sel a = Ok (mkDf 0 [])) /\
  (kept <> [] -> incl (attrs_of a) all_attributes -> attrs_of a <> [] ->
     (forall k, In k (attrs_of a) -> scalar_attr (g_haspot g) k) -> to_df g sel a = Raise ValueError) /\
  (kept <> [] -> incl (attrs_of a) all_attributes ->
     (exists k, In k (attrs_of a) /\ ~ scalar_attr (g_haspot g) k) ->
     to_df g sel a = Ok (mkDf (list_sum (map plen kept))
       (keyed (fun k => flat_map (fun p => pcol p k) kept) (dedup [] (attrs_of a))))).
Proof.
  intros Hg kept.
  assert (OK : forall p, In p kept -> pset_ok p /\ p_haspot p = g_haspot g).
  { intros p Hp. unfold kept in Hp. apply filter_In in Hp as [Hp _].
    apply gal_ok_facts in Hg as [gf_s0 gf_d0 gf_g0 gf_ts0 gf_td0 gf_tg0 gf_hs0 gf_hd0 gf_hg0].
    simpl in Hp. destruct Hp as [<-|[<-|[<-|[]]]]; auto. }
  repeat split.
  - intros E. unfold to_df. fold kept. rewrite E. reflexivity.
  - intros Hn Hu. unfold to_df. fold kept. destruct kept as [|p l]; [easy|]. simpl.
    destruct a as [l'|]; [rewrite pset_to_df_unknown by auto; reflexivity|].
    exfalso. apply Hu. simpl. apply incl_refl.
  - intros Hn ->. unfold to_df. fold kept.
    rewrite (mapM_total _ (fun _ => mkDf 0 [])) by (intros; apply pset_to_df_nil).
    cbn [bind]. destruct kept as [|p l]; [easy|]. clear.
    unfold concat_rows. simpl. rewrite map_map. simpl.
    assert (list_sum (map (fun _ : pset N => 0%nat) l) = 0%nat) as -> by (induction l; auto).
    assert (flat_map (fun p0 : df N => dkeys (cols p0)) (map (fun _ : pset N => mkDf 0 []) l) = []) as ->;
      [induction l; auto|reflexivity].
  - intros Hn Hi Ha Hs. unfold to_df. fold kept. destruct kept as [|p l]; [easy|]. simpl.
    destruct (OK p (or_introl eq_refl)) as [Hp Hh].
    assert (E : existsb (is_array p) (attrs_of a) = false).
    { apply Bool.not_true_iff_false. intros H. apply existsb_exists in H as (k & Hk & H).
      assert (K : known_attr k) by (apply Hi in Hk; exact Hk).
      apply Bool.not_false_iff_true in H. apply H. apply is_array_scalar; auto.
      rewrite Hh. auto. }
    destruct a as [l'|].
    + rewrite pset_to_df_scalars by auto. reflexivity.
    + exfalso. specialize (Hs "x"%string ltac:(simpl; tauto)). destruct Hs as [Hs|[_ [Hs|Hs]]]; discriminate.
  - intros Hn Hi (k & Hk & Hs). unfold kept in *. apply to_df_ok; auto.
    intros p Hp. destruct (OK p Hp) as [Hpo Hh]. apply existsb_exists. exists k; split; auto.
    apply Bool.not_false_iff_true. intros E. apply is_array_scalar in E; auto.
    + rewrite Hh in E. contradiction.
    + apply Hi in Hk. exact Hk.
Qed.

(** The rows of the frame: the wanted sets stacked in the order stars, dark matter, gas;
    row [i] of a set's block holds the attributes of particle [i] of that set. *)
Lemma c06_rows : forall (N : Num) (g : galaxy N) sel a d (keep : pset N -> bool),
  constructible g -> to_df g sel a = Ok d -> requested a <> [] ->
  (forall p, keep p = true <-> wanted sel p) ->
  let kept := filter keep (sets g) in
  nrows d = list_sum (map plen kept) /\
  (forall k c, get_col d k = Ok c -> length c = nrows d) /\
  (forall before p after i k,
     kept = before ++ p :: after -> (i < plen p)%nat -> In k (requested a) ->
     cell_at d k (list_sum (map plen before) + i) = attr_value p k i /\ attr_value p k i <> None).
Proof.
  intros N g sel a d keep Hg Hd Ha Hk kept. apply constructible_ok in Hg.
  unfold kept. rewrite (keep_selected sel keep Hk). change (sets g) with (psets g). clear kept.
  pose proof (to_df_cases g sel a Hg) as (C1 & C2 & C3 & C4 & C5). rewrite requested_attrs in *.
  set (kept := filter (selected sel) (psets g)) in *.
  destruct (list_eq_dec Nat.eq_dec (map (fun _ => 0%nat) kept) []) as [E0|E0].
  { rewrite C1 in Hd; [discriminate|]. destruct kept; [reflexivity|discriminate]. }
  assert (Hn : kept <> []) by (intros E; rewrite E in E0; apply E0; reflexivity).
  assert (DI : forall l, {incl l all_attributes} + {~ incl l all_attributes}).
  { clear. intros l. destruct (Forall_dec (fun k => In k all_attributes)
      (fun k => in_dec string_dec k all_attributes) l) as [F|F].
    - left. intros k Hk. rewrite Forall_forall in F. auto.
    - right. intros I. apply F. apply Forall_forall. auto. }
  destruct (DI (attrs_of a)) as [Hi|Hi]; [|rewrite C2 in Hd by auto; discriminate].
  assert (DS : {k | In k (attrs_of a) /\ ~ scalar_attr (g_haspot g) k} +
    {forall k, In k (attrs_of a) -> scalar_attr (g_haspot g) k}).
  { clear. assert (SD : forall k, {scalar_attr (g_haspot g) k} + {~ scalar_attr (g_haspot g) k}).
    { intros k. unfold scalar_attr. destruct (string_dec k "softening"); [left; auto|].
      destruct (g_haspot g); [right; intuition discriminate|].
      destruct (string_dec k "potential"); [left; auto|].
      destruct (string_dec k "total_energy"); [left; auto|]. right; intuition. }
    induction (attrs_of a) as [|k l [(k' & Hk & Hs)|IH]].
    - right. intros k [].
    - left. exists k'. simpl; auto.
    - destruct (SD k) as [S|S].
      + right. intros k' [<-|H]; auto.
      + left. exists k. simpl; auto. }
  destruct DS as [(k0 & Hk0)|DS]; [|rewrite C4 in Hd by auto; discriminate].
  rewrite C5 in Hd by eauto. injection Hd as <-. simpl.
  assert (OK : forall p, In p kept -> pset_ok p).
  { intros p Hp. unfold kept in Hp. apply filter_In in Hp as [Hp _].
    apply gal_ok_facts in Hg as [gf_s0 gf_d0 gf_g0 gf_ts0 gf_td0 gf_tg0 gf_hs0 gf_hd0 gf_hg0].
    simpl in Hp. destruct Hp as [<-|[<-|[<-|[]]]]; auto. }
  assert (LN : forall k l, incl l kept -> list_sum (map (fun p => length (pcol p k)) l) = list_sum (map plen l)).
  { intros k l Hl. f_equal. apply map_ext_in. intros p Hp. apply pcol_length. auto. }
  repeat split.
  - intros k c Hc. unfold get_col in Hc. simpl in Hc. rewrite dget_keyed in Hc.
    destruct (smem k _); [|discriminate]. injection Hc as <-.
    rewrite <- (LN k kept (incl_refl _)). clear. induction kept; simpl; [reflexivity|].
    rewrite app_length. congruence.
  - unfold cell_at. simpl. rewrite dget_keyed.
    assert (smem k (dedup [] (attrs_of a)) = true) as ->.
    { apply smem_In, dedup_In. simpl; tauto. }
    rewrite <- (LN k before). 2:{ rewrite H. intros q Hq. apply in_or_app; auto. }
    rewrite H. assert (pset_ok p) by (apply OK; rewrite H; apply in_or_app; simpl; auto).
    rewrite nth_error_flat_map by (rewrite pcol_length; auto).
    apply pcol_attr; auto. apply Hi in H1. exact H1.
  - assert (pset_ok p) by (apply OK; rewrite H; apply in_or_app; simpl; auto).
    apply pcol_attr; auto. apply Hi in H1. exact H1.
Qed.

(** When the frame exists, and its columns: the requested names, first occurrences, in order. *)
Lemma c07_columns : forall (N : Num) (g : galaxy N) sel a (keep : pset N -> bool),
  constructible g -> (forall p, keep p = true <-> wanted sel p) ->
  let kept := filter keep (sets g) in
  (kept = [] -> to_df g sel a = Raise ValueError) /\
  (kept <> [] -> (exists k, In k (requested a) /\ ~ known_attr k) -> to_df g sel a = Raise KeyError) /\
  (kept <> [] -> (forall k, In k (requested a) -> known_attr k) -> requested a <> [] ->
     (forall k, In k (requested a) -> scalar_attr (g_haspot g) k) -> to_df g sel a = Raise ValueError) /\
  (kept <> [] -> (forall k, In k (requested a) -> known_attr k) ->
     (exists k, In k (requested a) /\ ~ scalar_attr (g_haspot g) k) ->
     exists d, to_df g sel a = Ok d /\ dkeys (cols d) = first_occurrences (requested a)) /\
  (kept <> [] -> a = Some [] -> to_df g sel a = Ok (mkDf 0 [])).
Proof.
  intros N g sel a keep Hg Hk kept. apply constructible_ok in Hg.
  unfold kept. rewrite (keep_selected sel keep Hk). change (sets g) with (psets g). clear kept.
  pose proof (to_df_cases g sel a Hg) as (C1 & C2 & C3 & C4 & C5). rewrite requested_attrs in *.
  repeat split; auto.
  - intros Hn (k & Hk1 & Hk2). apply C2; auto. intros Hi. apply Hk2. apply Hi in Hk1. exact Hk1.
  - intros Hn Hi He. eexists. split; [apply C5; auto|]. simpl. rewrite dkeys_keyed. apply dedup_first.
Qed.

(** One set: which attribute requests are refused. *)
Lemma c07_particle_set : forall (N : Num) (p : pset N) a,
  constructible_set p ->
  ((exists k, In k (requested a) /\ ~ known_attr k) -> pset_to_df p a = Raise KeyError) /\
  ((forall k, In k (requested a) -> known_attr k) -> requested a <> [] ->
     (forall k, In k (requested a) -> scalar_attr (p_haspot p) k) -> pset_to_df p a = Raise ValueError) /\
  ((forall k, In k (requested a) -> known_attr k) ->
     (exists k, In k (requested a) /\ ~ scalar_attr (p_haspot p) k) ->
     exists d, pset_to_df p a = Ok d /\ nrows d = plen p /\
       dkeys (cols d) = first_occurrences (requested a)).
Proof.
  intros N p a Hp. apply constructible_set_ok in Hp. rewrite requested_attrs. repeat split.
  - intros (k & Hk & Hu). destruct a as [l|].
    + apply pset_to_df_unknown. intros Hi. apply Hu. apply Hi in Hk. exact Hk.
    + contradiction.
  - intros Hi Hn Hs. destruct a as [l|].
    + apply pset_to_df_scalars; auto. 
      apply Bool.not_true_iff_false. intros H. apply existsb_exists in H as (k & Hk & H).
      apply Bool.not_false_iff_true in H. apply H. apply is_array_scalar; auto.
    + specialize (Hs "x"%string ltac:(simpl; tauto)). destruct Hs as [Hs|[_ [Hs|Hs]]]; discriminate.
  - intros Hi (k & Hk & Hs). eexists. split; [apply pset_to_df_ok; auto|].
    + apply existsb_exists. exists k; split; auto.
      apply Bool.not_false_iff_true. intros E. apply is_array_scalar in E; auto.
    + simpl. rewrite dkeys_keyed. split; [reflexivity|]. apply dedup_first.
Qed.

Example ex_c06 : exists g, gal3 (Some (-5)%Z) (Some (-4)%Z) (Some (-3)%Z) = Ok g /\
  rmap dfshow (to_df g (PTList ["gas"; "stars"]%string) (Some ["x"; "ptype"; "softening"; "x"]%string)) =
  Ok [("x", [ShF (sZ 2); ShF (sZ 4)]); ("ptype", [ShS "stars"; ShS "gas"]);
            ("softening", [ShF (sZ 0); ShF (sZ 0)])]%string.
Proof. apply ok_sat. vm_compute. reflexivity. Qed.
Example ex_c07 : exists g, gal3 None None None = Ok g /\
  exn_of (to_df g PTNone (Some ["softening"; "potential"]%string)) = Some ValueError /\
  exn_of (to_df g (PTList ["star"]%string) (Some ["x"]%string)) = Some ValueError /\
  exn_of (to_df g PTNone (Some ["x"; "foo"]%string)) = Some KeyError.
Proof. apply ok_sat. vm_compute. auto. Qed.
