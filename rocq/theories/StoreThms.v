(** A galaxy that has been stored is analysed like the original (C87). *)
From Verif Require Import Py Num RX F64 Np Df Data DataFacts DfFacts RebuildFacts Center CenterFacts Align Spec SpecR SpecCirc SpecOrder SpecSym SpecBase Ex DataThms CenterThms AlignFacts AlignThms Circ CircFacts CurveFacts CircThms Base BaseFacts BaseThms Threshold EpsFacts ThresholdThms OrderThms SymFacts SymThms InvThms Io SpecIo IoFacts IoThms Potential SpecPot PotThms SpecPipe PipeThms.
From Coq Require Import Lia Floats.SpecFloat.

Section Same.
Context {N : Num}.
Implicit Types (g : galaxy N) (p : pset N).

Lemma sbs_shift s x0 y0 z0 p q : same_but_softening s p q -> same_but_softening s (shift x0 y0 z0 p) (shift x0 y0 z0 q).
Proof.
  intros (A1 & A2 & A3 & A4 & A5 & A6 & A7 & A8 & A9 & _ & _ & _ & _ & _ & _ & A10). unfold shift. rewrite A1, A2, A3, A4, A5, A6, A7, A8, A9, A10.
  unfold same_but_softening, pset_of. cbn. repeat split.
Qed.
Lemma sbs_rot s A p q : same_but_softening s p q -> same_but_softening s (rot_set A p) (rot_set A q).
Proof.
  intros (A1 & A2 & A3 & A4 & A5 & A6 & A7 & A8 & A9 & _ & _ & _ & _ & _ & _ & A10). unfold rot_set. rewrite A1, A2, A3, A4, A5, A6, A7, A8, A9, A10.
  unfold same_but_softening, pset_of. cbn. repeat split.
Qed.
Lemma sbs_same s p q : same_but_softening s p q -> p_soft p = s -> q = p.
Proof.
  intros (A1 & A2 & A3 & A4 & A5 & A6 & A7 & A8 & A9 & B1 & B2 & B3 & B4 & B5 & B6 & A10) E. destruct p, q; cbn in *. subst. reflexivity.
Qed.
Lemma rb_fields ss sd sg g g' : read_back ss sd sg g g' -> gx g' = gx g /\ gy g' = gy g /\ gz g' = gz g /\ glen g' = glen g /\ gpot g' = gpot g.
Proof.
  intros ((A1 & A2 & A3 & A4 & A5 & A6 & A7 & A8 & A9 & A10 & A11) & (B1 & B2 & B3 & B4 & B5 & B6 & B7 & B8 & B9 & B10 & B11) & (C1 & C2 & C3 & C4 & C5 & C6 & C7 & C8 & C9 & C10 & C11) & H).
  assert (P : forall p q : pset N, p_m q = p_m p -> p_pot q = p_pot p -> pcol q "potential" = pcol p "potential").
  { intros p q E1 E2. unfold pcol, maker, plen. rewrite E1. cbn. now rewrite E2. }
  unfold gpot, gcol. rewrite (P (g_stars g) (g_stars g')), (P (g_dm g) (g_dm g')), (P (g_gas g) (g_gas g')) by assumption.
  unfold gx, gy, gz, glen, plen. rewrite A2, A3, A4, A5, B2, B3, B4, B5, C2, C3, C4, C5. repeat split.
Qed.
(** Centring. *)
Lemma rb_center ss sd sg g g' : gal_ok g -> gal_ok g' -> read_back ss sd sg g g' ->
  (exists e, center g = Raise e /\ center g' = Raise e) \/
  exists c c', center g = Ok c /\ center g' = Ok c' /\ gal_ok c /\ gal_ok c' /\ read_back ss sd sg c c'.
Proof.
  intros G G' B. pose proof (rb_fields _ _ _ _ _ B) as (X & Y & Z & L & P). destruct B as (S & D & Q & H).
  destruct (g_haspot g) eqn:E.
  2:{ left. exists ValueError. unfold center. rewrite H, E. auto. }
  destruct (Nat.eq_dec (glen g) 0) as [E0|E0].
  { left. exists ValueError. assert (C : constructible g) by now apply constructible_ok. assert (C' : constructible g') by now apply constructible_ok.
    destruct (c08_guard N g n0 n0 C) as (_ & K & _), (c08_guard N g' n0 n0 C') as (_ & K' & _). split; [apply K; assumption|apply K'; congruence]. }
  right. destruct (center_total g G E ltac:(lia)) as (i & x0 & y0 & z0 & Hi & _ & Hx & Hy & Hz & Hc).
  exists (shift_gal x0 y0 z0 g), (shift_gal x0 y0 z0 g'). split; [exact Hc|]. split; [apply (center_eq g' i); congruence|].
  split; [now apply shift_gal_ok|]. split; [now apply shift_gal_ok|]. split; [|split; [|split]]; [now apply sbs_shift|now apply sbs_shift|now apply sbs_shift|]. change (g_haspot g' = g_haspot g). congruence.
Qed.
(** Aligning. *)
Lemma rb_align ss sd sg g g' r : gal_ok g -> gal_ok g' -> read_back ss sd sg g g' ->
  (exists e, star_align g r = Raise e /\ star_align g' r = Raise e) \/
  exists c c', star_align g r = Ok c /\ star_align g' r = Ok c' /\ gal_ok c /\ gal_ok c' /\ read_back ss sd sg c c'.
Proof.
  intros G G' (S & D & Q & H). rewrite !star_align_eq by assumption. destruct (cut_ok r); [|left; eauto]. right.
  assert (M : gal_matrix g' r = gal_matrix g r).
  { unfold gal_matrix. destruct S as (_ & S1 & S2 & S3 & S4 & _ & _ & _ & _ & _ & _ & _ & S5 & S6 & S7 & _). now rewrite S1, S2, S3, S4, S5, S6, S7. }
  rewrite M. eexists. eexists. split; [reflexivity|]. split; [reflexivity|]. split; [now apply rot_gal_ok|]. split; [now apply rot_gal_ok|].
  split; [|split; [|split]]; [now apply sbs_rot|now apply sbs_rot|now apply sbs_rot|exact H].
Qed.
End Same.

(** A galaxy that is stored and read again, whatever softenings it is given then: centring,
    aligning and decomposing it gives the components (or the error) of the original, bit for
    bit, if the decomposer uses circularities. *)
Lemma c87_decompose : forall (N : Num) (RN : Rounded N) (M : Type) defaults (now : M) (f : h5 N M) (g : galaxy N) metadata f' r,
  constructible g -> no_nan g -> NoDup (dkeys (h_objs f)) ->
  to_hdf5 quiet defaults now f g metadata None None = (f', r) ->
  forall ss sd sg argsort St (D : decomposer N St) st r_cut, (forall a, In a (d_attributes D) -> circ_attr a) ->
  (do g' <- read_hdf5 f' ss sd sg; do c <- center g'; do a <- star_align c r_cut; decompose argsort D st a) =
  (do c <- center g; do a <- star_align c r_cut; decompose argsort D st a).
Proof.
  intros N RN M defaults now f g metadata f' r Hg Hn Hf W ss sd sg argsort St D st r_cut HD.
  destruct (c50_round_trip N M defaults now f g metadata f' r Hg Hn Hf W) as (_ & R). destruct (R ss sd sg) as (g' & Er & B). rewrite Er. cbn [bind].
  assert (G' : gal_ok g').
  { unfold read_hdf5 in Er. destruct (read_table f' "stars") as [ts|]; [|discriminate Er]. cbn [bind] in Er. destruct (read_table f' "dark_matter") as [td|]; [|discriminate Er]. cbn [bind] in Er.
    destruct (read_table f' "gas") as [tg|]; [|discriminate Er]. cbn [bind] in Er. apply constructible_ok. eapply mkgalaxy_constructible; eauto. }
  apply constructible_ok in Hg as G.
  destruct (rb_center ss sd sg g g' G G' B) as [(e & E1 & E2)|(c & c' & E1 & E2 & C & C' & B1)]; rewrite E1, E2; cbn [bind]; [reflexivity|].
  destruct (rb_align ss sd sg c c' r_cut C C' B1) as [(e & E3 & E4)|(a & a' & E3 & E4 & A & A' & B2)]; rewrite E3, E4; cbn [bind]; [reflexivity|].
  apply (c75_mass N RN argsort St D st a a'); [now apply constructible_ok|now apply constructible_ok|exact HD|].
  destruct B2 as (S & Dm & Q & _). constructor; [|constructor; [|constructor; [|constructor]]];
    [destruct S as (_ & _ & X1 & X2 & X3 & X4 & X5 & X6 & X7 & _)|destruct Dm as (_ & _ & X1 & X2 & X3 & X4 & X5 & X6 & X7 & _)|destruct Q as (_ & _ & X1 & X2 & X3 & X4 & X5 & X6 & X7 & _)]; repeat split; assumption.
Qed.

(** With the softenings of the original it is the original. *)
Lemma c87_same : forall (N : Num) (M : Type) defaults (now : M) (f : h5 N M) (g : galaxy N) metadata f' r,
  constructible g -> no_nan g -> NoDup (dkeys (h_objs f)) ->
  to_hdf5 quiet defaults now f g metadata None None = (f', r) ->
  read_hdf5 f' (p_soft (g_stars g)) (p_soft (g_dm g)) (p_soft (g_gas g)) = Ok g.
Proof.
  intros N M defaults now f g metadata f' r Hg Hn Hf W.
  destruct (c50_round_trip N M defaults now f g metadata f' r Hg Hn Hf W) as (_ & R). destruct (R (p_soft (g_stars g)) (p_soft (g_dm g)) (p_soft (g_gas g))) as (g' & Er & S & D & Q & H).
  rewrite Er. f_equal. apply sbs_same in S, D, Q; try reflexivity. destruct g, g'. cbn in *. subst. reflexivity.
Qed.

(** Eight particles: stored in an empty file and read again with softenings 7, 8 and 9 they are
    centred on the third particle, aligned, and two of the stars get a label. *)
Definition analysed (g : galaxy F64) : res (components F64 * unit) :=
  do c <- center g; do a <- star_align c None; decompose asort thr tt a.
Example ex_c87 : exists g f', sampleG = Ok g /\ constructible g /\ no_nan g /\ NoDup (dkeys (h_objs empty5)) /\
  to_hdf5 quiet [] 0%Z empty5 g None None None = (f', Ok tt) /\ (forall a, In a (d_attributes thr) -> circ_attr a) /\
  (do g' <- read_hdf5 f' (fZ 7) (fZ 8) (fZ 9); analysed g') = analysed g /\
  rmap (fun cs => shows (c_labels (fst cs))) (analysed g) = Ok [S754_nan; sZ 0; S754_nan; sZ 1; S754_nan; S754_nan; S754_nan; S754_nan].
Proof.
  destruct (ok_sat (fun g => clean g = true /\ rmap (fun cs => shows (c_labels (fst cs))) (analysed g) = Ok [S754_nan; sZ 0; S754_nan; sZ 1; S754_nan; S754_nan; S754_nan; S754_nan]) sampleG) as (g & E & C & L); [vm_compute; auto|].
  destruct (to_hdf5 quiet [] 0%Z empty5 g None None None) as [f' r] eqn:W. exists g, f'.
  assert (G : constructible g) by exact (lineG_ok _ _ _ _ E). apply clean_no_nan in C.
  destruct (c50_round_trip F64 Z [] 0%Z empty5 g None f' r G C (NoDup_nil _) W) as (-> & _).
  assert (A : forall a, In a (d_attributes thr) -> circ_attr a) by (intros a Ha; apply circ_attr_iff; simpl in Ha; destruct Ha as [<-|[]]; reflexivity).
  split; [exact E|]. split; [exact G|]. split; [exact C|]. split; [constructor|]. split; [exact W|]. split; [exact A|]. split; [|exact L].
  unfold analysed. eapply (c87_decompose F64 (F64_rounded _) Z [] 0%Z empty5 g None f' (Ok tt)); try eassumption. constructor.
Qed.

(** Two stars of mass 15 at distance 3, with softening 4. *)
Definition soft4 : res (galaxy F64) :=
  do s <- zset STARS [15; 15]%Z [0; 3]%Z [0; 0]%Z [0; 0]%Z [0; 0]%Z [0; 0]%Z [0; 0]%Z None 4;
  do d <- zset DARK_MATTER [] [] [] [] [] [] [] None 0; do q <- zset GAS [] [] [] [] [] [] [] None 0; mk_galaxy s d q.
Lemma soft4_ok g : soft4 = Ok g -> constructible g.
Proof.
  unfold soft4. destruct (zset STARS _ _ _ _ _ _ _ _ _) as [s|] eqn:Es; [|intros H; discriminate H]. destruct (zset DARK_MATTER _ _ _ _ _ _ _ _ _) as [d|] eqn:Ed; [|intros H; discriminate H].
  destruct (zset GAS _ _ _ _ _ _ _ _ _) as [q|] eqn:Eq; [|intros H; discriminate H]. cbn [bind]. intros Eg.
  exists s, d, q. unfold constructible_set. unfold zset in Es, Ed, Eq. split; [|split; [|split]]; eauto 20.
Qed.
Definition pots_of (g : galaxy F64) : res (list spec_float) :=
  rmap (fun h => shows (all_pots h)) (potential (W:=F64) (S:=F32) to32 to64 (backend_table n1 true junk0) "fortran" g).
(** The softenings are not stored: a potential computed after reading with the default
    softenings need not be that of the original. *)
Lemma c87_softening_refuted : exists (g g' h h' : galaxy F64) (f' : h5 F64 Z), constructible g /\ no_nan g /\
  to_hdf5 quiet [] 0%Z empty5 g None None None = (f', Ok tt) /\ read_hdf5 f' (fZ 0) (fZ 0) (fZ 0) = Ok g' /\
  potential (W:=F64) (S:=F32) to32 to64 (backend_table n1 true junk0) "fortran" g = Ok h /\
  potential (W:=F64) (S:=F32) to32 to64 (backend_table n1 true junk0) "fortran" g' = Ok h' /\
  shows (all_pots h) = [sZ (-3); sZ (-3)] /\ shows (all_pots h') = [sZ (-5); sZ (-5)].
Proof.
  destruct (ok_sat (fun g => clean g = true /\ pots_of g = Ok [sZ (-3); sZ (-3)] /\
    (do g' <- read_hdf5 (fst (to_hdf5 quiet [] 0%Z empty5 g None None None)) (fZ 0) (fZ 0) (fZ 0); pots_of g') = Ok [sZ (-5); sZ (-5)]) soft4) as (g & E & C & P & P'); [vm_compute; auto|].
  apply soft4_ok in E. apply clean_no_nan in C. destruct (to_hdf5 quiet [] 0%Z empty5 g None None None) as [f' r] eqn:W. cbn [fst] in P'.
  destruct (c50_round_trip F64 Z [] 0%Z empty5 g None f' r E C (NoDup_nil _) W) as (-> & R). destruct (R (fZ 0) (fZ 0) (fZ 0)) as (g' & Er & _).
  rewrite Er in P'. cbn [bind] in P'. unfold pots_of in P, P'.
  destruct (potential _ _ _ _ g) as [h|] eqn:Eh; [|discriminate P]. destruct (potential _ _ _ _ g') as [h'|] eqn:Eh'; [|discriminate P'].
  cbn [rmap] in P, P'. exists g, g', h, h', f'. split; [exact E|]. split; [exact C|]. split; [exact W|]. split; [exact Er|]. split; [exact Eh|]. split; [exact Eh'|]. split; congruence.
Qed.
