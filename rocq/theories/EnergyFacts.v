(** The selection by energy. *)
From Verif Require Import Py Num RX F64 Np Df Data CenterFacts Circ Base Threshold EpsFacts ThresholdThms SpecHist Hist HistFacts EdgeFacts HistThms.
From Coq Require Import Lia Permutation.

Lemma nodup_app {A} (l l' : list A) : NoDup l -> NoDup l' -> (forall x, In x l -> In x l' -> False) -> NoDup (l ++ l').
Proof.
  induction 1 as [|a l Ha Hl IH]; intros H' Hd; [exact H'|]. cbn [app]. constructor.
  - rewrite in_app_iff. intros [I|I]; [contradiction|]. apply (Hd a); [now left|exact I].
  - apply IH; [exact H'|]. intros x I I'. apply (Hd x); [now right|exact I'].
Qed.

Section Energy.
Context {N : Num} (RN : Rounded N) (G : grid RN).

Lemma take_at_ok (a : list N) l : (forall i, In i l -> (i < length a)%nat) -> exists es, take_at a l = Ok es.
Proof.
  unfold take_at. induction l as [|i l IH]; intros H; [exists []; reflexivity|]. cbn [mapM].
  destruct (nth_error_lt a i) as (x & ->); [apply H; now left|]. cbn [bind]. destruct IH as (es & ->); [intros; apply H; now right|]. cbn. eauto.
Qed.
Lemma take_at_spec (a : list N) l es : take_at a l = Ok es ->
  forall f, count (map f es) = length (with_energy f a l) /\ bmask (map f es) l = with_energy f a l.
Proof.
  unfold take_at. revert es. induction l as [|i l IH]; intros es H f.
  - injection H as <-. split; reflexivity.
  - cbn [mapM] in H. destruct (nth_error a i) as [x|] eqn:Ex; [|discriminate]. cbn [bind] in H.
    destruct (mapM _ l) as [es'|] eqn:El; [|discriminate]. cbn [bind] in H. injection H as <-.
    destruct (IH es' eq_refl f) as (A & B). unfold count, with_energy in *. cbn [map filter bmask]. rewrite Ex, B. destruct (f x); cbn [length]; auto.
Qed.

(** Edges of the energy bins. *)
Lemma energy_grid n : (1 <= n)%nat -> (Z.of_nat n <= 2 ^ 53)%Z -> grid_to (n0 : N) n (linspace nm1 n0 n).
Proof.
  intros Hn Hn'. destruct (linspace_val RN G nm1 n0 1 n (or_introl eq_refl) (val_nm1 RN) (val_n0 RN) Hn Hn') as (s & f & _ & Hf & F0 & Fn & Fm & _).
  split; [apply linspace_length|]. destruct (Hf 0%nat ltac:(lia)) as (V0 & _). destruct (Hf n ltac:(lia)) as (Vn & _). split; [|split].
  - apply (neqb_iff RN). rewrite V0, F0, (val_nm1 RN). split; [reflexivity|discriminate].
  - apply (neqb_iff RN). rewrite Vn, Fn, (val_n0 RN). split; [reflexivity|discriminate].
  - intros i Hi. destruct (Hf i ltac:(lia)) as (Vi & _). destruct (Hf (S i) ltac:(lia)) as (Vs & _). apply (nle_iff RN). rewrite Vi, Vs. simpl. now apply Fm.
Qed.
Lemma counted_in_bin edges n j (e : N) : (j < n)%nat -> counted edges n j e = in_bin edges n j e.
Proof.
  intros H. unfold counted, in_bin. destruct (Nat.ltb_spec (S j) n) as [L|L], (Nat.eqb_spec (S j) n) as [E|E]; try lia; reflexivity.
Qed.
(** np.histogram and the mask differ only on zero energies, in the last bin. *)
Lemma counted_half n j (e : N) : (1 <= n)%nat -> (Z.of_nat n <= 2 ^ 53)%Z -> (j < n)%nat ->
  let ed := linspace nm1 n0 n in
  (half_open ed j e = true -> counted ed n j e = true) /\
  (counted ed n j e = true -> half_open ed j e = false -> neqb e n0 = true /\ S j = n) /\
  (S j = n -> neqb e n0 = true -> counted ed n j e = true /\ half_open ed j e = false).
Proof.
  intros Hn Hn' Hj ed. pose proof (energy_grid n Hn Hn') as GG. fold ed in GG. unfold half_open, counted. split; [|split].
  - intros H. apply andb_prop in H as (A & B). rewrite A. simpl. destruct (S j <? n)%nat; [exact B|]. apply (nlt_iff RN) in B. apply (nle_iff RN). now apply xlt_le.
  - intros H. apply andb_prop in H as (A & B). rewrite A. simpl. destruct (Nat.ltb_spec (S j) n) as [L|L]; [congruence|]. intros C.
    assert (E : S j = n) by lia. rewrite E in *. destruct GG as (_ & _ & Gn & _). apply (neqb_iff RN) in Gn as (Gn & _).
    split; [|reflexivity]. apply (nle_iff RN) in B. apply (nlt_false RN) in C. rewrite Gn in B, C. apply (neqb_iff RN).
    assert (Nn : val RN e <> XNaN) by now apply xle_nan_l in B. rewrite (val_n0 RN) in *. split; [|exact Nn].
    destruct (val RN e) as [r| | |]; simpl in *; try contradiction; try (exfalso; auto; fail). f_equal. apply Rle_antisym; [exact B|]. now apply Rnot_lt_le.
  - intros E Hz. apply (neqb_iff RN) in Hz as (Hz & _). pose proof GG as (_ & _ & Gn & Gm). pose proof (Gm j Hj) as Gj. rewrite E in *.
    apply (neqb_iff RN) in Gn as (Gn & _). rewrite (proj2 (nle_iff RN (nth j ed nnan) e)).
    2:{ rewrite Hz, <- Gn. now apply (nle_iff RN). }
    destruct (Nat.ltb_spec n n); [lia|]. simpl. split.
    + apply (nle_iff RN). rewrite Hz, Gn, (val_n0 RN). simpl. lra.
    + apply (nlt_false RN). rewrite Hz, Gn, (val_n0 RN). simpl. lra.
Qed.
Lemma half_unique n j j' (e : N) : (1 <= n)%nat -> (Z.of_nat n <= 2 ^ 53)%Z -> (j < n)%nat -> (j' < n)%nat ->
  counted (linspace nm1 n0 n) n j e = true -> counted (linspace nm1 n0 n) n j' e = true -> j = j'.
Proof.
  intros Hn Hn' Hj Hj' A B. rewrite counted_in_bin in A, B by assumption. apply in_bin_holds in A, B; auto.
  eapply (grid_unique RN); eauto using energy_grid.
Qed.

Lemma with_energy_split P Q R (a : list N) l : (forall e, P e = true <-> (Q e = true \/ R e = true)) -> (forall e, Q e = true -> R e = true -> False) ->
  length (with_energy P a l) = (length (with_energy Q a l) + length (with_energy R a l))%nat.
Proof.
  intros H1 H2. unfold with_energy. induction l as [|i l IH]; [reflexivity|]. cbn [filter]. destruct (nth_error a i) as [e|]; [|exact IH].
  specialize (H1 e). specialize (H2 e). destruct (P e), (Q e), (R e); cbn [length]; try lia; exfalso; intuition congruence.
Qed.
Lemma with_energy_ext P Q (a : list N) l : (forall e, P e = Q e) -> with_energy P a l = with_energy Q a l.
Proof. intros H. unfold with_energy. apply filter_ext. intros i. destruct (nth_error a i); auto. Qed.
Lemma with_energy_perm P (a : list N) l l' : Permutation l l' -> length (with_energy P a l) = length (with_energy P a l').
Proof. apply filter_perm. Qed.

(** Each particle is counted in at most one energy bin. *)
Lemma counted_total n (a : list N) l : (1 <= n)%nat -> (Z.of_nat n <= 2 ^ 53)%Z ->
  (list_sum (map (fun j => length (with_energy (counted (linspace nm1 n0 n) n j) a l)) (seq 0 n)) <= length l)%nat.
Proof.
  intros Hn Hn'. set (ed := linspace nm1 n0 n).
  assert (K : forall js, NoDup js -> (forall j, In j js -> (j < n)%nat) ->
     (list_sum (map (fun j => length (with_energy (counted ed n j) a l)) js) <= length l)%nat).
  2:{ apply K; [apply seq_NoDup|]. intros j I. apply in_seq in I. lia. }
  intros js ND Hjs. induction l as [|i l IH].
  - clear. induction js as [|j js IH]; simpl; auto.
  - assert (E : (list_sum (map (fun j => length (with_energy (counted ed n j) a (i :: l))) js) =
                 list_sum (map (fun j => length (with_energy (counted ed n j) a [i])) js) + list_sum (map (fun j => length (with_energy (counted ed n j) a l)) js))%nat).
    { clear. induction js as [|j js IH]; [reflexivity|]. cbn [map list_sum fold_right] in *. unfold list_sum in *. rewrite IH. cbn [fold_right].
      unfold with_energy. cbn [filter]. destruct (nth_error a i) as [e|]; [destruct (counted ed n j e)|]; cbn [length]; lia. }
    rewrite E. cbn [length]. enough (list_sum (map (fun j => length (with_energy (counted ed n j) a [i])) js) <= 1)%nat by lia.
    clear IH E. unfold with_energy. cbn [filter]. destruct (nth_error a i) as [e|].
    2:{ clear. induction js; simpl; auto. }
    induction ND as [|j js Hj ND IH]; [simpl; lia|]. cbn [map list_sum fold_right]. unfold list_sum in *. cbn [fold_right].
    destruct (counted ed n j e) eqn:Cj; [|apply IH; intros; apply Hjs; now right].
    enough (fold_right Nat.add 0 (map (fun j => length (if counted ed n j e then [i] else [])) js) = 0)%nat as -> by (simpl; lia).
    assert (Hz : forall j', In j' js -> counted ed n j' e = false).
    { intros j' I. apply not_true_iff_false. intros C. apply Hj. rewrite (half_unique n j j' e); auto; [apply Hjs; now left|apply Hjs; now right]. }
    clear - Hz. induction js as [|k js IH]; [reflexivity|]. cbn [map fold_right]. rewrite Hz by now left. cbn [length Nat.add]. apply IH. intros; apply Hz; now right.
Qed.

Context {St : Type}.
Variable choice : St -> list nat -> nat -> list nat * St.
Hypothesis HD : draws choice.
Variables (energy : list N) (n_bin_E : Z).
Hypothesis HnE : (1 <= n_bin_E <= 2 ^ 53)%Z.
Let n := Z.to_nat n_bin_E.
Let ed : list N := linspace nm1 n0 n.

Definition short (cnt cor : list nat) (j : nat) : Prop :=
  (length (with_energy (half_open ed j) energy cor) < length (with_energy (counted ed n j) energy cnt) < length (with_energy (counted ed n j) energy cor))%nat.

Lemma pick_energy_cases st cnt cor :
  (forall i, In i cnt -> (i < length energy)%nat) -> (forall i, In i cor -> (i < length energy)%nat) ->
  (exists T st', pick_energy choice energy n_bin_E st cnt cor = Ok (concat (map T (seq 0 n)), st') /\
     forall j, (j < n)%nat -> incl (T j) (with_energy (half_open ed j) energy cor) /\ (NoDup cor -> NoDup (T j)) /\
       length (T j) = Nat.min (length (with_energy (counted ed n j) energy cnt)) (length (with_energy (half_open ed j) energy cor)) /\
       ~ short cnt cor j) \/
  (pick_energy choice energy n_bin_E st cnt cor = Raise ValueError /\ exists j, (j < n)%nat /\ short cnt cor j).
Proof.
  intros Hcnt Hcor. destruct (take_at_ok energy cnt Hcnt) as (ecnt & E1). destruct (take_at_ok energy cor Hcor) as (ecor & E2).
  pose proof (take_at_spec _ _ _ E1) as S1. pose proof (take_at_spec _ _ _ E2) as S2.
  unfold pick_energy. rewrite E1. cbn [bind]. unfold np_histogram. assert ((1 <=? n_bin_E)%Z = true) as -> by (apply Z.leb_le; lia).
  cbn [guard bind]. rewrite E2. cbn [bind fst snd]. fold n. fold ed.
  set (hcnt := map _ (seq 0 n)). set (hcor := map _ (seq 0 n)).
  assert (Hc : forall (es : list N) l, (forall f, count (map f es) = length (with_energy f energy l) /\ bmask (map f es) l = with_energy f energy l) -> forall j, (j < n)%nat ->
     nth j (map (fun i => count (map (in_bin ed n i) es)) (seq 0 n)) 0%nat = length (with_energy (counted ed n j) energy l)).
  { intros es l HS j Hj. rewrite (nth_indep _ _ (count (map (in_bin ed n 0) es))) by (rewrite map_length, seq_length; exact Hj).
    rewrite (map_nth (fun i => count (map (in_bin ed n i) es))). rewrite seq_nth by exact Hj. rewrite (proj1 (HS _)). f_equal.
    apply with_energy_ext. intros e. now rewrite counted_in_bin. }
  assert (H1 : forall j, (j < n)%nat -> nth j hcnt 0%nat = length (with_energy (counted ed n j) energy cnt)) by (apply Hc; exact S1).
  assert (H2 : forall j, (j < n)%nat -> nth j hcor 0%nat = length (with_energy (counted ed n j) energy cor)) by (apply Hc; exact S2).
  clearbody hcnt hcor.
  assert (Hle : forall j, (j < n)%nat -> (length (with_energy (half_open ed j) energy cor) <= length (with_energy (counted ed n j) energy cor))%nat).
  { intros j Hj. unfold with_energy. clear - Hj RN G HnE. induction cor as [|i l IH]; [simpl; lia|]. cbn [filter].
    destruct (nth_error energy i) as [e|]; [|exact IH]. destruct (counted_half n j e ltac:(unfold n; lia) ltac:(unfold n; lia) Hj) as (A & _). fold ed in A.
    destruct (half_open ed j e); [rewrite A by reflexivity; cbn [length]; lia|]. destruct (counted ed n j e); cbn [length]; lia. }
  assert (Hraise : forall js e, fold_left (energy_step choice ed cor ecor hcnt hcor) js (Raise e) = Raise e) by (induction js; simpl; auto).
  assert (K : forall js acc st0, NoDup js -> (forall j, In j js -> (j < n)%nat) ->
    (exists T st', fold_left (energy_step choice ed cor ecor hcnt hcor) js (Ok (acc, st0)) = Ok (acc ++ concat (map T js), st') /\
       forall j, In j js -> incl (T j) (with_energy (half_open ed j) energy cor) /\ (NoDup cor -> NoDup (T j)) /\
       length (T j) = Nat.min (length (with_energy (counted ed n j) energy cnt)) (length (with_energy (half_open ed j) energy cor)) /\ ~ short cnt cor j) \/
    (fold_left (energy_step choice ed cor ecor hcnt hcor) js (Ok (acc, st0)) = Raise ValueError /\ exists j, (j < n)%nat /\ short cnt cor j)).
  { induction js as [|j js IH]; intros acc st0 ND Hjs.
    - left. exists (fun _ => []), st0. split; [simpl; now rewrite app_nil_r|intros j []].
    - cbn [fold_left]. inversion ND as [|? ? Nj ND']; subst. assert (Hj : (j < n)%nat) by (apply Hjs; now left).
      assert (STEP : (exists tj st1, energy_step choice ed cor ecor hcnt hcor (Ok (acc, st0)) j = Ok (acc ++ tj, st1) /\
          incl tj (with_energy (half_open ed j) energy cor) /\ (NoDup cor -> NoDup tj) /\
          length tj = Nat.min (length (with_energy (counted ed n j) energy cnt)) (length (with_energy (half_open ed j) energy cor)) /\ ~ short cnt cor j) \/
          (energy_step choice ed cor ecor hcnt hcor (Ok (acc, st0)) j = Raise ValueError /\ short cnt cor j)).
      { unfold energy_step. cbn [bind]. rewrite H1, H2 by exact Hj. specialize (Hle j Hj). unfold short.
        destruct (S2 (fun x => nle (nth j ed nnan) x && nlt x (nth (S j) ed nnan))) as (_ & ->). fold (half_open ed j). change (fun e : N => half_open ed j e) with (half_open ed j) in *.
        set (sel := with_energy (half_open ed j) energy cor) in *.
        destruct (Nat.eqb_spec (length (with_energy (counted ed n j) energy cnt)) 0) as [Z|Z].
        - left. exists [], st0. rewrite app_nil_r. split; [reflexivity|]. split; [intros x []|]. split; [constructor|]. split; [rewrite Z; reflexivity|lia].
        - destruct (Nat.leb_spec (length (with_energy (counted ed n j) energy cor)) (length (with_energy (counted ed n j) energy cnt))) as [L|L].
          + left. exists sel, st0. split; [reflexivity|]. split; [apply incl_refl|]. split; [intros ND0; apply NoDup_filter, ND0|]. lia.
          + destruct (Nat.lt_ge_cases (length sel) (length (with_energy (counted ed n j) energy cnt))) as [Q|Q].
            * right. unfold draw. destruct (Nat.leb_spec (length (with_energy (counted ed n j) energy cnt)) (length sel)); [lia|]. split; [reflexivity|lia].
            * left. destruct (draw choice st0 sel (length (with_energy (counted ed n j) energy cnt))) as [(s, st1)|e] eqn:Ed.
              2:{ rewrite draw_ok in Ed by exact Q. discriminate. }
              destruct (draw_spec _ _ _ _ _ _ HD Ed) as (A1 & A2 & _ & A4). exists s, st1. split; [reflexivity|]. split; [exact A1|].
              split; [intros ND0; apply A4, NoDup_filter, ND0|]. lia. }
      destruct STEP as [(tj & st1 & -> & P1 & P2 & P3 & P4)|(-> & P)].
      2:{ right. rewrite Hraise. split; [reflexivity|]. eauto. }
      destruct (IH (acc ++ tj) st1 ND' ltac:(intros; apply Hjs; now right)) as [(T & st' & ET & HT)|R]; [left|now right].
      exists (fun k => if (k =? j)%nat then tj else T k), st'. split.
      { rewrite ET. do 2 f_equal. cbn [map concat]. rewrite Nat.eqb_refl, <- app_assoc. do 3 f_equal. apply map_ext_in. intros k Ik.
        destruct (Nat.eqb_spec k j) as [->|]; [contradiction|reflexivity]. }
      intros k Ik. destruct (Nat.eqb_spec k j) as [->|Hne]; [auto|]. apply HT. destruct Ik; [congruence|assumption]. }
  destruct (K (seq 0 n) [] st (seq_NoDup _ _) ltac:(intros j I; apply in_seq in I; lia)) as [(T & st' & ET & HT)|R]; [left|right; exact R].
  exists T, st'. split; [exact ET|]. intros j Hj. apply HT. apply in_seq. lia.
Qed.

(** What the selection returns. *)
Lemma pick_energy_ok st cnt cor s st' :
  (forall i, In i cnt -> (i < length energy)%nat) -> (forall i, In i cor -> (i < length energy)%nat) ->
  pick_energy choice energy n_bin_E st cnt cor = Ok (s, st') ->
  incl s cor /\ (NoDup cor -> NoDup s) /\ (length s <= length cnt)%nat /\
  (forall i, In i s -> exists e, nth_error energy i = Some e /\ nle nm1 e = true /\ nlt e n0 = true) /\
  (NoDup cor -> forall j, (j < n)%nat -> length (with_energy (half_open ed j) energy s) =
     Nat.min (length (with_energy (counted ed n j) energy cnt)) (length (with_energy (half_open ed j) energy cor))).
Proof.
  intros Hcnt Hcor H. assert (Hn1 : (1 <= n)%nat) by (unfold n; lia). assert (Hn2 : (Z.of_nat n <= 2 ^ 53)%Z) by (unfold n; lia).
  destruct (pick_energy_cases st cnt cor Hcnt Hcor) as [(T & st1 & E & HT)|(E & _)]; [|congruence].
  rewrite H in E. injection E as -> <-.
  assert (IN : forall i, In i (concat (map T (seq 0 n))) <-> exists j, (j < n)%nat /\ In i (T j)).
  { intros i. apply gather_in. }
  assert (TE : forall j i, (j < n)%nat -> In i (T j) -> In i cor /\ exists e, nth_error energy i = Some e /\ half_open ed j e = true).
  { intros j i Hj I. apply (HT j Hj) in I. unfold with_energy in I. apply filter_In in I as (I & F). split; [exact I|]. destruct (nth_error energy i) as [e|]; [eauto|discriminate]. }
  assert (U : forall j j' i, (j < n)%nat -> (j' < n)%nat -> In i (T j) -> In i (T j') -> j = j').
  { intros j j' i Hj Hj' I I'. destruct (TE j i Hj I) as (_ & e & Ee & He). destruct (TE j' i Hj' I') as (_ & e' & Ee' & He'). assert (e' = e) as -> by congruence.
    apply (half_unique n j j' e); auto; [exact (proj1 (counted_half n j e Hn1 Hn2 Hj) He)|exact (proj1 (counted_half n j' e Hn1 Hn2 Hj') He')]. }
  assert (K : NoDup cor -> forall js, NoDup js -> (forall j, In j js -> (j < n)%nat) -> NoDup (concat (map T js))).
  { intros ND. induction js as [|j js IH]; intros NJ HJ; [constructor|]. cbn [map concat]. inversion NJ as [|? ? Nj NJ']; subst.
    assert (Hj : (j < n)%nat) by (apply HJ; now left). specialize (IH NJ' ltac:(intros; apply HJ; now right)).
    apply nodup_app; [now apply HT|exact IH|]. intros x I I'. apply in_concat in I' as (l & Il & I'). apply in_map_iff in Il as (k & <- & Ik).
    apply Nj. rewrite (U j k x); auto. apply HJ. now right. }
  split; [|split; [|split; [|split]]].
  - intros i I. apply IN in I as (j & Hj & I). now apply (TE j).
  - intros ND. apply K; [exact ND|apply seq_NoDup|]. intros j I. apply in_seq in I. lia.
  - apply Nat.le_trans with (list_sum (map (fun j => length (with_energy (counted ed n j) energy cnt)) (seq 0 n))); [|apply counted_total; auto].
    assert (HJ : forall j, In j (seq 0 n) -> (j < n)%nat) by (intros j I; apply in_seq in I; lia).
    clear H IN. induction (seq 0 n) as [|j js IH]; [simpl; lia|]. cbn [map concat list_sum fold_right]. rewrite app_length.
    destruct (HT j (HJ j (or_introl eq_refl))) as (_ & _ & L & _). specialize (IH ltac:(intros; apply HJ; now right)). unfold list_sum in *. cbn [fold_right]. lia.
  - intros i I. apply IN in I as (j & Hj & I). destruct (TE j i Hj I) as (_ & e & Ee & He). exists e. split; [exact Ee|].
    destruct (counted_half n j e Hn1 Hn2 Hj) as (A & _). specialize (A He). rewrite counted_in_bin in A by exact Hj. apply in_bin_holds in A; [|exact Hj].
    pose proof (energy_grid n Hn1 Hn2) as GG. destruct (grid_inside RN _ _ _ _ _ Hn1 GG A) as (B1 & _). split; [exact B1|].
    unfold half_open in He. apply andb_prop in He as (_ & He). apply (nlt_iff RN) in He. apply (nlt_iff RN). eapply xlt_le_trans; [exact He|].
    pose proof GG as (_ & _ & Gn & _). apply (neqb_iff RN) in Gn as (Gn & Gn'). rewrite <- Gn.
    destruct (Nat.eq_dec (S j) n) as [Q|Q]; [rewrite Q; apply xle_refl; exact Gn'|]. apply (grid_chain RN n0 n); [exact GG|lia].
  - intros ND j Hj. destruct (HT j Hj) as (T1 & T2 & <- & _). unfold with_energy. apply count_in.
    + apply K; [exact ND|apply seq_NoDup|]. intros k I. apply in_seq in I. lia.
    + now apply T2.
    + intros i I. apply IN. eauto.
    + intros i I. apply IN in I as (k & Hk & I). destruct (TE k i Hk I) as (_ & e & Ee & He). rewrite Ee. split.
      * intros Hh. assert (j = k) as ->; [|exact I]. apply (half_unique n j k e); auto; [exact (proj1 (counted_half n j e Hn1 Hn2 Hj) Hh)|exact (proj1 (counted_half n k e Hn1 Hn2 Hk) He)].
      * intros I'. assert (j = k) as -> by (eapply U; eauto). exact He.
Qed.
End Energy.
