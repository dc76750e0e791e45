(** What a star decomposer hands to its split method, and where the answers go. *)
From Verif Require Import Py Num RX F64 Np Df Data DataFacts DfFacts CenterFacts Ex Spec DataThms SpecCirc Circ CircFacts CircThms SpecBase Base BaseFacts BaseThms Threshold EpsFacts.
From Coq Require Import Sorted.

Lemma select_where {A} (d : A) : forall mask l, length mask = length l -> select mask l = map (fun i => nth i l d) (where_ mask).
Proof.
  unfold where_. induction mask as [|b mask IH]; intros [|x l] L; try discriminate; [reflexivity|].
  injection L as L. unfold select in *. cbn [combine filter fst]. destruct b; cbn [map snd where_from].
  - f_equal. rewrite (IH l L), where_from_S, map_map. reflexivity.
  - rewrite (IH l L), where_from_S, map_map. reflexivity.
Qed.
Lemma where_sorted : forall mask k, StronglySorted lt (where_from k mask) /\ forall i, In i (where_from k mask) -> (k <= i)%nat.
Proof.
  induction mask as [|b mask IH]; intros k; cbn [where_from]; [split; [constructor|intros i []]|]. destruct (IH (S k)) as (A & B). destruct b.
  - split; [constructor; [exact A|]; apply Forall_forall; intros i I; specialize (B i I); lia|]. intros i [<-|I]; [lia|]. specialize (B i I). lia.
  - split; [exact A|]. intros i I. specialize (B i I). lia.
Qed.
Lemma where_rank : forall mask r i, nth_error (where_ mask) r = Some i -> rank mask i = r /\ nth_error mask i = Some true.
Proof.
  unfold where_. induction mask as [|b mask IH]; intros r i H; [destruct r; discriminate|]. cbn [where_from] in H. rewrite where_from_S in H. destruct b.
  - destruct r as [|r]; simpl in H; [injection H as <-; split; reflexivity|]. rewrite nth_error_map in H.
    destruct (nth_error (where_from 0 mask) r) as [j|] eqn:E; [|discriminate]. injection H as <-. destruct (IH r j E) as (<- & M). split; [reflexivity|exact M].
  - rewrite nth_error_map in H. destruct (nth_error (where_from 0 mask) r) as [j|] eqn:E; [|discriminate]. injection H as <-. destruct (IH r j E) as (<- & M). split; [reflexivity|exact M].
Qed.

Section Handed.
Context {N : Num} (RN : Rounded N) (argsort : nat -> list N -> list nat).

(** The values of the attributes of star [k] (_base.py 331-403). *)
Definition feature_row (j : jcirc_t N) (attrs : list string) (k : nat) : list (cell N) :=
  map (fun a => CNum (nth k (circ_col j a) nnan)) attrs.

Lemma star_rows cb (g : galaxy N) A X y mask :
  constructible g -> star_attrs A -> attributes_matrix argsort cb g A = Ok (X, y) -> stars_mask X y A = Ok mask ->
  exists j, jcirc argsort g (fst cb) (snd cb) = Ok j /\ length mask = length X /\ length mask = length y /\ length X = glen g /\
    (forall k, In k (where_ mask) <-> (k < plen (g_stars g))%nat /\ forall a, In a A -> exists v, nth_error (circ_col j a) k = Some v /\ nfin v = true) /\
    select mask X = map (feature_row j A) (where_ mask) /\ selected_rows mask = length (where_ mask) /\
    (forall i, (i < glen g)%nat -> ~ In i (where_ mask) -> nth_error mask i = Some false).
Proof.
  intros Hc HA H1 H2. pose proof (star_attrs_rows g _ HA) as Ho.
  destruct (c37_matrix N RN argsort _ g _ X y Hc H1 Ho) as (LX & Ly & j & Hj & Hrow).
  pose proof (Hj (star_attrs_circ _ HA)) as Ej. destruct (c36_mask N X y _ mask H2) as (H3 & Hmask); [congruence|].
  assert (U : forall i p k, located g i p k ->
     (nth_error mask i = Some true <-> p_type p = STARS /\ forall a, In a A -> exists v, nth_error (circ_col j a) k = Some v /\ nfin v = true) /\
     (p_type p = STARS -> nth_error X i = Some (feature_row j A k))).
  { intros i p k Hl. destruct (Hrow i p k Hl) as (Hy & row & Er & Lr & Hcell). split.
    - rewrite Hmask. split.
      + intros (r & cc & E1 & E2 & F & T). assert (r = row) as -> by congruence. assert (cc = CInt (ptype_value (p_type p))) as -> by congruence.
        assert (TS : p_type p = STARS).
        { destruct T as [T|(x & T & _)]; [|discriminate]. destruct (p_type p); [reflexivity|discriminate|discriminate]. }
        split; [exact TS|]. intros a Ha. pose proof Ha as Ha'. apply In_nth_error in Ha as (n & Hn). destruct (Hcell n a Hn) as (v & Ev & Av).
        rewrite Forall_forall in F. pose proof (F v (nth_error_In _ _ Ev)) as Fv.
        destruct Av as [(A1 & A2 & w & A3 & ->)|[(A1 & A2 & A3)|(A1 & A2)]]; [exists w; split; [exact A3|exact Fv]|contradiction|].
        exfalso. apply A1, HA, Ha'.
      + intros (T & F). exists row, (CInt 0). split; [exact Er|]. split; [rewrite Hy, T; reflexivity|]. split; [|auto].
        apply Forall_forall. intros v Hv. apply In_nth_error in Hv as (n & Hn).
        destruct (nth_error A n) as [a|] eqn:Ea.
        * destruct (Hcell n a Ea) as (v' & Ev & Av). assert (v' = v) as -> by congruence.
          pose proof (nth_error_In _ _ Ea) as Ia. destruct Av as [(A1 & A2 & w & A3 & ->)|[(A1 & A2 & A3)|(A1 & A2)]]; [|contradiction|exfalso; apply A1, HA, Ia].
          destruct (F a Ia) as (w' & E3 & Fw). assert (w' = w) as -> by congruence. exact Fw.
        * apply nth_error_None in Ea. assert (n < length row)%nat by (apply nth_error_Some; congruence). lia.
    - intros T. rewrite Er. f_equal. apply nth_error_ext. intros n. unfold feature_row. rewrite nth_error_map.
      destruct (nth_error A n) as [a|] eqn:Ea.
      + destruct (Hcell n a Ea) as (v & Ev & Av). rewrite Ev. cbn [option_map]. f_equal.
        destruct Av as [(A1 & A2 & w & A3 & ->)|[(A1 & A2 & A3)|(A1 & A2)]]; [|contradiction|exfalso; apply A1, HA; eapply nth_error_In; exact Ea].
        now rewrite (nth_error_nth _ _ _ A3).
      + apply nth_error_None. apply nth_error_None in Ea. lia. }
  assert (TS : p_type (g_stars g) = STARS).
  { pose proof (proj1 (constructible_ok _) Hc) as (_ & _ & _ & Hg). now apply mk_galaxy_inv in Hg as (_ & _ & _ & T1 & _). }
  assert (US : forall i, In i (where_ mask) <-> (i < plen (g_stars g))%nat /\ forall a, In a A -> exists v, nth_error (circ_col j a) i = Some v /\ nfin v = true).
  { intros i. rewrite where_In. split.
    - intros Hi. assert (Hlt : (i < glen g)%nat) by (rewrite <- LX, <- H3; apply nth_error_Some; congruence).
      destruct (c37_located N g i Hlt) as (p & k & Hl). apply (proj1 (U i p k Hl)) in Hi as (T & F). destruct (located_star g i p k Hc Hl T) as (-> & -> & Hk). auto.
    - intros (Hi & F). apply (proj1 (U i _ i (star_located g i Hi))). auto. }
  exists j. split; [exact Ej|]. split; [exact H3|]. split; [congruence|]. split; [exact LX|]. split; [exact US|]. split; [|split].
  - rewrite (select_where [] mask X H3). apply map_ext_in. intros i I. apply US in I as (Hi & _).
    apply nth_error_nth. apply (proj2 (U i _ i (star_located g i Hi))). exact TS.
  - unfold where_. rewrite where_from_length. reflexivity.
  - intros i Hi Ni. destruct (nth_error mask i) as [[|]|] eqn:E; [exfalso; apply Ni; now apply where_In|reflexivity|]. apply nth_error_None in E. lia.
Qed.

Lemma star_handed St (D : decomposer N St) st (g : galaxy N) c st' :
  constructible g -> star_attrs (d_attributes D) -> d_mask D = stars_mask ->
  decompose argsort D st g = Ok (c, st') ->
  exists j used labels pr ys,
    jcirc argsort g (fst (d_cbins D)) (snd (d_cbins D)) = Ok j /\ StronglySorted lt used /\
    (forall k, In k used <-> (k < plen (g_stars g))%nat /\ forall a, In a (d_attributes D) -> exists v, nth_error (circ_col j a) k = Some v /\ nfin v = true) /\
    d_split D st (map (feature_row j (d_attributes D)) used) ys (d_attributes D) = Ok (labels, pr, st') /\
    (length labels = length used ->
       (forall r k, nth_error used r = Some k -> exists z, nth_error labels r = Some z /\ nth_error (c_labels c) k = Some (nofZ z)) /\
       (forall i, (i < glen g)%nat -> ~ In i used -> nth_error (c_labels c) i = Some nnan)) /\
    (pr = None -> c_probs c = None) /\
    (forall p, pr = Some p -> length (pr_rows p) = length used -> exists q, c_probs c = Some q /\ pr_width q = pr_width p /\ length (pr_rows q) = glen g /\
       (forall r k, nth_error used r = Some k -> nth_error (pr_rows q) k = nth_error (pr_rows p) r) /\
       (forall i, (i < glen g)%nat -> ~ In i used -> nth_error (pr_rows q) i = Some (repeat nnan (pr_width p)))).
Proof.
  intros Hc HA Hm H.
  destruct (decompose_inv _ _ _ _ _ _ H) as (X & y & mask & labels & pr & H1 & H2 & H3 & H4 & H5 & H6 & H7 & H8). rewrite Hm in H2.
  destruct (star_rows _ g _ X y mask Hc HA H1 H2) as (j & Ej & _ & _ & LX & US & EX & CW & FL).
  exists j, (where_ mask), labels, pr, (select mask y). split; [exact Ej|]. split; [apply where_sorted|]. split; [exact US|].
  split; [rewrite <- EX; exact H5|].
  split; [|split].
  - intros L. destruct (c36_labels N X labels mask _ H6) as (_ & _ & HT & HF); [congruence|]. split.
    + intros r k Hr. destruct (where_rank _ _ _ Hr) as (<- & M). now apply HT.
    + intros i Hi Ni. apply HF. auto.
  - intros ->. unfold complete_probs in H7. congruence.
  - intros p -> L. destruct (c36_probs N X p mask _ H7) as (q & E & W & LR & PT & PF); [congruence|].
    exists q. split; [exact E|]. split; [exact W|]. split; [congruence|]. split.
    + intros r k Hr. destruct (where_rank _ _ _ Hr) as (<- & M). now apply PT.
    + intros i Hi Ni. apply PF. auto.
Qed.

(** Conversely, decompose fails when split does and returns when split does with one label
    (and row of probabilities) for each row. *)
Lemma star_handed_returns St (D : decomposer N St) st (g : galaxy N) j :
  constructible g -> star_attrs (d_attributes D) -> d_mask D = stars_mask ->
  jcirc argsort g (fst (d_cbins D)) (snd (d_cbins D)) = Ok j ->
  exists used ys, StronglySorted lt used /\
    (forall k, In k used <-> (k < plen (g_stars g))%nat /\ forall a, In a (d_attributes D) -> exists v, nth_error (circ_col j a) k = Some v /\ nfin v = true) /\
    (forall e, d_split D st (map (feature_row j (d_attributes D)) used) ys (d_attributes D) = Raise e -> decompose argsort D st g = Raise e) /\
    (forall labels pr st', d_split D st (map (feature_row j (d_attributes D)) used) ys (d_attributes D) = Ok (labels, pr, st') ->
       length labels = length used -> (forall p, pr = Some p -> length (pr_rows p) = length used) -> exists c, decompose argsort D st g = Ok (c, st')).
Proof.
  intros Hc HA Hm Hj. pose proof (star_attrs_rows g _ HA) as Ho.
  destruct (star_decompose_errors RN argsort St D st g Hc HA Hm) as (_ & E). destruct (E j Hj) as (X & y & mask & H1 & H2 & _ & _ & _ & HR & _).
  destruct (star_rows _ g _ X y mask Hc HA H1 H2) as (j' & Ej & L3 & _ & LX & US & EX & CW & FL). assert (j' = j) as -> by congruence.
  exists (where_ mask), (select mask y). split; [apply where_sorted|]. split; [exact US|]. rewrite <- EX, <- CW. split; [exact HR|].
  intros labels pr st' HS L1 L2. rewrite <- Hm in H2. exact (c35_succeeds N RN argsort St D st g X y mask labels pr st' Hc Ho H1 H2 L3 HS L1 L2).
Qed.
End Handed.
