(** Facts about the data.py model. *)
From Verif Require Import Py Num Np Df Data.

(** ** Particle types *)

Lemma ptype_eqb_eq p q : ptype_eqb p q = true <-> p = q.
Proof. destruct p, q; cbv; split; congruence. Qed.

Lemma ascii_upper_idem c : ascii_upper (ascii_upper c) = ascii_upper c.
Proof. destruct c as [[] [] [] [] [] [] [] []]; reflexivity. Qed.
Lemma ascii_upper_lower c : ascii_upper (ascii_lower c) = ascii_upper c.
Proof. destruct c as [[] [] [] [] [] [] [] []]; reflexivity. Qed.

Section DataFacts.
Context {N : Num}.

Lemma mktype_str (s : string) :
  mktype (N:=N) (PyStr s) =
  if String.eqb (upper s) "STARS" then Ok STARS
  else if String.eqb (upper s) "DARK_MATTER" then Ok DARK_MATTER
  else if String.eqb (upper s) "GAS" then Ok GAS else Raise ValueError.
Proof.
  unfold mktype. cbn [find ptypes_all py_matches ptype_name].
  destruct (String.eqb (upper s) "STARS"); auto.
  destruct (String.eqb (upper s) "DARK_MATTER"); auto.
  destruct (String.eqb (upper s) "GAS"); auto.
Qed.

(** ** Constructor of particle sets *)

Definition kin (vx vy vz : N) : N :=
  (nlit 1 2 * ((vx * vx + vy * vy) + vz * vz))%num.
Definition crossc (a d b c : N) : N := (a * d - b * c)%num.

Definition map3' {A B C D} (f : A -> B -> C -> D) a b c : list D :=
  map2 (fun p z => f (fst p) (snd p) z) (map2 pair a b) c.
Definition map4 {A B C D E} (f : A -> B -> C -> D -> E) a b c d : list E :=
  map2 (fun p q => f (fst p) (snd p) (fst q) (snd q)) (map2 pair a b) (map2 pair c d).

Lemma kinetic_eq (vx vy vz : list N) :
  length vy = length vx -> length vz = length vx ->
  kinetic_default vx vy vz = Ok (map3' kin vx vy vz).
Proof.
  intros H1 H2. unfold kinetic_default, sq_arr.
  rewrite bop_eq by (rewrite !map_length; auto). simpl.
  rewrite bop_eq by (rewrite map2_length, !map_length; lia). simpl. f_equal.
  unfold map3'. clear H1 H2.
  revert vy vz; induction vx as [|a vx IH]; intros [|b vy] [|c vz]; simpl; auto.
  f_equal. apply IH.
Qed.

Lemma total_eq (ke : list N) pot :
  (forall p, pot = Some p -> length p = length ke) ->
  total_default ke pot = Ok (option_map (map2 nadd ke) pot).
Proof.
  intros H. destruct pot as [p|]; simpl; [|reflexivity].
  rewrite bop_eq by (symmetry; apply H; reflexivity). reflexivity.
Qed.

Lemma cross_eq (a d b c : list N) :
  length d = length a -> length b = length a -> length c = length a ->
  cross_default a d b c = Ok (map4 crossc a d b c).
Proof.
  intros H1 H2 H3. unfold cross_default.
  rewrite bop_eq by auto. simpl. rewrite bop_eq by lia. simpl.
  rewrite bop_eq by (rewrite !map2_length; lia). f_equal.
  unfold map4. clear H1 H2 H3.
  revert d b c; induction a as [|w a IH]; intros [|x d] [|y b] [|z c]; simpl; auto.
  f_equal; apply IH.
Qed.

(** The fully determined result of the constructor. *)
Definition pset_of (t : ptype) (m x y z vx vy vz : list N) (pot : option (list N)) (soft : N)
  : pset N :=
  mkPset t m x y z vx vy vz pot soft
    (match pot with Some _ => true | None => false end)
    (map3' kin vx vy vz) (option_map (map2 nadd (map3' kin vx vy vz)) pot)
    (map4 crossc y vz z vy) (map4 crossc z vx x vz) (map4 crossc x vy y vx).

Definition lens_ok (m x y z vx vy vz : list N) (pot : option (list N)) : Prop :=
  length x = length m /\ length y = length m /\ length z = length m /\
  length vx = length m /\ length vy = length m /\ length vz = length m /\
  (forall p, pot = Some p -> length p = length m).

Lemma same_lengths_iff m x y z vx vy vz pot :
  same_lengths (N:=N) m x y z vx vy vz pot = true <-> lens_ok m x y z vx vy vz pot.
Proof.
  unfold same_lengths, lens_ok. simpl. rewrite !andb_true_iff, !Nat.eqb_eq.
  destruct pot as [p|]; rewrite ?Nat.eqb_eq.
  - split; [intros ((A & B & C & D & E & F & _) & G); repeat split; auto; intros q [= <-]; auto|].
    intros (A & B & C & D & E & F & G). repeat split; auto.
  - split; [intros ((A & B & C & D & E & F & _) & G); repeat split; auto; intros q; discriminate|].
    intros (A & B & C & D & E & F & G). repeat split; auto.
Qed.

Lemma map3'_length {A B C D} (f : A -> B -> C -> D) a b c :
  length b = length a -> length c = length a -> length (map3' f a b c) = length a.
Proof. intros; unfold map3'. rewrite !map2_length. lia. Qed.
Lemma map4_length {A B C D E} (f : A -> B -> C -> D -> E) a b c d :
  length b = length a -> length c = length a -> length d = length a ->
  length (map4 f a b c d) = length a.
Proof. intros; unfold map4. rewrite !map2_length. lia. Qed.

Lemma mk_pset_ok t m x y z vx vy vz pot soft :
  lens_ok m x y z vx vy vz pot ->
  mk_pset t m x y z vx vy vz pot soft = Ok (pset_of t m x y z vx vy vz pot soft).
Proof.
  intros H. pose proof H as (A & B & C & D & E & F & G). unfold mk_pset.
  rewrite kinetic_eq by lia. cbn [bind].
  rewrite total_eq.
  2:{ intros p Hp. rewrite map3'_length by lia. rewrite (G _ Hp). lia. }
  cbn [bind].
  rewrite !cross_eq by lia. cbn [bind].
  apply same_lengths_iff in H. rewrite H. reflexivity.
Qed.

Lemma kinetic_raise (vx vy vz : list N) e : kinetic_default vx vy vz = Raise e -> e = ValueError.
Proof.
  unfold kinetic_default. intros H.
  apply bind_raise in H as [H|(a & _ & H)]; [now apply bop_raise in H|].
  apply bind_raise in H as [H|(b & _ & H)]; [now apply bop_raise in H|discriminate].
Qed.
Lemma cross_raise (a b c d : list N) e : cross_default a b c d = Raise e -> e = ValueError.
Proof.
  unfold cross_default. intros H.
  apply bind_raise in H as [H|(? & _ & H)]; [now apply bop_raise in H|].
  apply bind_raise in H as [H|(? & _ & H)]; [now apply bop_raise in H|now apply bop_raise in H].
Qed.

Lemma mk_pset_raise t m x y z vx vy vz pot soft e :
  mk_pset (N:=N) t m x y z vx vy vz pot soft = Raise e -> e = ValueError.
Proof.
  unfold mk_pset. intros H.
  apply bind_raise in H as [H|(ke & _ & H)]; [now apply kinetic_raise in H|].
  apply bind_raise in H as [H|(te & _ & H)].
  { unfold total_default in H. destruct pot; [|discriminate].
    apply bind_raise in H as [H|(? & _ & H)]; [now apply bop_raise in H|discriminate]. }
  apply bind_raise in H as [H|(? & _ & H)]; [now apply cross_raise in H|].
  apply bind_raise in H as [H|(? & _ & H)]; [now apply cross_raise in H|].
  apply bind_raise in H as [H|(? & _ & H)]; [now apply cross_raise in H|].
  apply bind_raise in H as [H|(? & _ & H)]; [|discriminate].
  unfold guard in H. destruct (same_lengths _ _ _ _ _ _ _ _); congruence.
Qed.

Lemma mk_pset_lens t m x y z vx vy vz pot soft p :
  mk_pset t m x y z vx vy vz pot soft = Ok p ->
  lens_ok m x y z vx vy vz pot /\ p = pset_of t m x y z vx vy vz pot soft.
Proof.
  intros H. assert (L : lens_ok m x y z vx vy vz pot).
  { apply same_lengths_iff. revert H. unfold mk_pset.
    destruct (kinetic_default _ _ _); [cbn [bind]|discriminate].
    destruct (total_default _ _); [cbn [bind]|discriminate].
    destruct (cross_default _ _ _ _); [cbn [bind]|discriminate].
    destruct (cross_default _ _ _ _); [cbn [bind]|discriminate].
    destruct (cross_default _ _ _ _); [cbn [bind]|discriminate].
    unfold guard. destruct (same_lengths _ _ _ _ _ _ _ _); [auto|discriminate]. }
  split; [exact L|]. rewrite mk_pset_ok in H by exact L. congruence.
Qed.

(** A particle set that was built by the constructor. *)
Definition pset_ok (p : pset N) : Prop :=
  mk_pset (p_type p) (p_m p) (p_x p) (p_y p) (p_z p) (p_vx p) (p_vy p) (p_vz p)
    (p_pot p) (p_soft p) = Ok p.

Lemma mk_pset_pset_ok t m x y z vx vy vz pot soft p :
  mk_pset t m x y z vx vy vz pot soft = Ok p -> pset_ok p.
Proof. intros H. pose proof (mk_pset_lens _ _ _ _ _ _ _ _ _ _ _ H) as [_ E]. subst p. exact H. Qed.

Lemma pset_ok_iff p :
  pset_ok p <->
  lens_ok (p_m p) (p_x p) (p_y p) (p_z p) (p_vx p) (p_vy p) (p_vz p) (p_pot p) /\
  p = pset_of (p_type p) (p_m p) (p_x p) (p_y p) (p_z p) (p_vx p) (p_vy p) (p_vz p)
        (p_pot p) (p_soft p).
Proof.
  unfold pset_ok. split.
  - apply mk_pset_lens.
  - intros [L E]. rewrite mk_pset_ok by auto. now rewrite <- E.
Qed.

(** A galaxy that was built by the constructors. *)
Definition gal_ok (g : galaxy N) : Prop :=
  pset_ok (g_stars g) /\ pset_ok (g_dm g) /\ pset_ok (g_gas g) /\
  mk_galaxy (g_stars g) (g_dm g) (g_gas g) = Ok g.

Lemma mk_galaxy_inv (s d g : pset N) G :
  mk_galaxy s d g = Ok G ->
  G = mkGal s d g (p_haspot s) /\ p_haspot d = p_haspot s /\ p_haspot g = p_haspot s /\
  p_type s = STARS /\ p_type d = DARK_MATTER /\ p_type g = GAS.
Proof.
  unfold mk_galaxy. intros H.
  destruct (p_haspot s) eqn:Es, (p_haspot d) eqn:Ed, (p_haspot g) eqn:Eg; simpl in H; try discriminate;
  (destruct (ptype_eqb (p_type s) STARS) eqn:A; simpl in H; [|discriminate];
   destruct (ptype_eqb (p_type d) DARK_MATTER) eqn:B; simpl in H; [|discriminate];
   destruct (ptype_eqb (p_type g) GAS) eqn:C; simpl in H; [|discriminate];
   apply ptype_eqb_eq in A; apply ptype_eqb_eq in B; apply ptype_eqb_eq in C;
   injection H as <-; repeat split; auto).
Qed.

Lemma mk_galaxy_ok (s d g : pset N) :
  p_haspot d = p_haspot s -> p_haspot g = p_haspot s ->
  p_type s = STARS -> p_type d = DARK_MATTER -> p_type g = GAS ->
  mk_galaxy s d g = Ok (mkGal s d g (p_haspot s)).
Proof.
  intros H1 H2 H3 H4 H5. unfold mk_galaxy. rewrite H1, H2, H3, H4, H5.
  destruct (p_haspot s); reflexivity.
Qed.

Lemma gal_ok_mk s d g G :
  pset_ok s -> pset_ok d -> pset_ok g -> mk_galaxy s d g = Ok G -> gal_ok G.
Proof.
  intros Hs Hd Hg H. pose proof (mk_galaxy_inv _ _ _ _ H) as (-> & _).
  repeat split; auto.
Qed.

Record gal_facts (g : galaxy N) : Prop := {
  gf_s : pset_ok (g_stars g); gf_d : pset_ok (g_dm g); gf_g : pset_ok (g_gas g);
  gf_ts : p_type (g_stars g) = STARS;
  gf_td : p_type (g_dm g) = DARK_MATTER;
  gf_tg : p_type (g_gas g) = GAS;
  gf_hs : p_haspot (g_stars g) = g_haspot g;
  gf_hd : p_haspot (g_dm g) = g_haspot g;
  gf_hg : p_haspot (g_gas g) = g_haspot g
}.

Lemma gal_ok_facts g : gal_ok g <-> gal_facts g.
Proof.
  split.
  - intros (Hs & Hd & Hg & H). pose proof (mk_galaxy_inv _ _ _ _ H) as (E & A & B & C & D & F).
    assert (E' : p_haspot (g_stars g) = g_haspot g) by (rewrite E; reflexivity).
    constructor; auto; congruence.
  - intros []. repeat split; auto. rewrite mk_galaxy_ok by congruence.
    rewrite gf_hs0. destruct g; reflexivity.
Qed.

Lemma pset_ok_haspot p : pset_ok p -> p_haspot p = match p_pot p with Some _ => true | None => false end.
Proof. intros H. apply pset_ok_iff in H as [_ E]. rewrite E at 1. reflexivity. Qed.

Lemma pset_ok_lens p : pset_ok p ->
  lens_ok (p_m p) (p_x p) (p_y p) (p_z p) (p_vx p) (p_vy p) (p_vz p) (p_pot p).
Proof. intros H. now apply pset_ok_iff in H. Qed.

Lemma pset_ok_ke p : pset_ok p -> p_ke p = map3' kin (p_vx p) (p_vy p) (p_vz p).
Proof. intros H. apply pset_ok_iff in H as [_ E]. rewrite E at 1. reflexivity. Qed.
Lemma pset_ok_te p : pset_ok p ->
  p_te p = option_map (map2 nadd (p_ke p)) (p_pot p).
Proof. intros H. pose proof (pset_ok_ke _ H) as K. apply pset_ok_iff in H as [_ E].
  rewrite K. rewrite E at 1. reflexivity. Qed.
Lemma pset_ok_Jx p : pset_ok p -> p_Jx p = map4 crossc (p_y p) (p_vz p) (p_z p) (p_vy p).
Proof. intros H. apply pset_ok_iff in H as [_ E]. rewrite E at 1. reflexivity. Qed.
Lemma pset_ok_Jy p : pset_ok p -> p_Jy p = map4 crossc (p_z p) (p_vx p) (p_x p) (p_vz p).
Proof. intros H. apply pset_ok_iff in H as [_ E]. rewrite E at 1. reflexivity. Qed.
Lemma pset_ok_Jz p : pset_ok p -> p_Jz p = map4 crossc (p_x p) (p_vy p) (p_y p) (p_vx p).
Proof. intros H. apply pset_ok_iff in H as [_ E]. rewrite E at 1. reflexivity. Qed.

(** All arrays of a constructed set have its length. *)
Lemma pset_ok_lengths p : pset_ok p ->
  length (p_x p) = plen p /\ length (p_y p) = plen p /\ length (p_z p) = plen p /\
  length (p_vx p) = plen p /\ length (p_vy p) = plen p /\ length (p_vz p) = plen p /\
  length (p_ke p) = plen p /\ length (p_Jx p) = plen p /\ length (p_Jy p) = plen p /\
  length (p_Jz p) = plen p /\
  (forall l, p_pot p = Some l -> length l = plen p) /\
  (forall l, p_te p = Some l -> length l = plen p).
Proof.
  intros H. pose proof (pset_ok_lens _ H) as (A & B & C & D & E & F & G). unfold plen.
  rewrite (pset_ok_te _ H), (pset_ok_Jx _ H), (pset_ok_Jy _ H), (pset_ok_Jz _ H), (pset_ok_ke _ H).
  rewrite !map4_length, !map3'_length by lia. repeat split; auto.
  intros l Hl. destruct (p_pot p) as [q|]; [|discriminate]. injection Hl as <-.
  rewrite map2_length, map3'_length by lia. rewrite (G _ eq_refl). lia.
Qed.

End DataFacts.
