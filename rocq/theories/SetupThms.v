(** setup.py and the default backend (C90). *)
From Verif Require Import Py Num RX F64 Np Data Spec DataThms Ex Header SpecHeader HeaderThms Setup SpecSetup Potential PotThms AccThms.
From Coq Require Import Lia.
Local Open Scope Z_scope.

Lemma starts_iff p l : startswith p l = true <-> exists r, l = p ++ r.
Proof.
  revert l. induction p as [|c p IH]; intros l; cbn [startswith]; [split; [intros _; exists l; reflexivity|reflexivity]|].
  destruct l as [|d l]; [split; [intros H; discriminate H|intros (r & H); discriminate H]|]. rewrite andb_true_iff, IH, Z.eqb_eq. split.
  - intros (-> & r & ->). exists r. reflexivity.
  - intros (r & H). cbn in H. injection H as -> ->. eauto.
Qed.
Lemma version_iff l : startswith (lit "__version__") l = true <-> version_line l.
Proof. apply starts_iff. Qed.
(** The line break at the end of a line does not make it a version line. *)
Lemma version_nl l w : ~ In 10 l -> version_line (l ++ w) -> w = [] \/ w = [10] -> version_line l.
Proof.
  intros N (r & E) [-> | ->]; [rewrite app_nil_r in E; exists r; exact E|]. destruct r as [|x r] using rev_ind.
  - exfalso. rewrite app_nil_r in E. apply (f_equal (fun l => last l 0)) in E. rewrite last_last in E. vm_compute in E. discriminate E.
  - rewrite app_assoc in E. apply app_inj_tail in E as (E & _). exists r. exact E.
Qed.
Lemma unquoted_fun l u : unquoted l u -> u = unquote l.
Proof. induction 1 as [|t u _ IH|c t u N _ IH]; [reflexivity|exact IH|]. cbn. rewrite (proj2 (Z.eqb_neq c 34) N). cbn. now rewrite IH. Qed.
Lemma after_some a r : ~ In 61 a -> after_eq (a ++ 61 :: r) = Some r.
Proof.
  induction a as [|c a IH]; intros N; [reflexivity|]. cbn. destruct (Z.eqb_spec c 61) as [-> |_]; [exfalso; apply N; now left|]. apply IH. intros I. apply N. now right.
Qed.
Lemma after_none l : ~ In 61 l -> after_eq l = None.
Proof. induction l as [|c l IH]; intros N; [reflexivity|]. cbn. destruct (Z.eqb_spec c 61) as [-> |_]; [exfalso; apply N; now left|]. apply IH. intros I. apply N. now right. Qed.
Lemma lstrip_skip w t : (forall c, In c w -> In c spaces) -> lstrip (w ++ t) = lstrip t.
Proof.
  induction w as [|c w IH]; intros H; [reflexivity|]. cbn [app lstrip]. rewrite (proj2 (isspace_iff c)) by (apply H; now left). apply IH. intros d I. apply H. now right.
Qed.
Lemma lstrip_id t : (forall c r, t = c :: r -> ~ In c spaces) -> lstrip t = t.
Proof. destruct t as [|c t]; intros H; [reflexivity|]. cbn. destruct (isspace c) eqn:E; [|reflexivity]. apply isspace_iff in E. exfalso. exact (H _ _ eq_refl E). Qed.
Lemma strip_fun t v : stripped t v -> strip t = v.
Proof.
  intros (w & w' & -> & A & B & C). unfold strip. rewrite lstrip_skip by (intros c I; apply A, in_or_app; auto).
  destruct v as [|c v].
  - cbn [app]. assert (X : lstrip w' = []) by (rewrite <- (app_nil_r w'); rewrite lstrip_skip; [reflexivity|intros c I; apply A, in_or_app; auto]). now rewrite X.
  - rewrite lstrip_id; [|intros d r E; cbn in E; injection E as <- _; exact (B c v eq_refl)]. apply trims_rstrip. exists w'. split; [reflexivity|]. split; [intros d I; apply A, in_or_app; auto|intros r d; apply C].
Qed.

(** The lines of a file as the loop sees them. *)
Lemma lines_read e ls last : eol e -> (forall l, In l (lines_of ls last) -> ~ In 10 l /\ ~ In 13 l) ->
  exists ws, readlines (universal (ended e ls last)) = map2 (@app Z) (lines_of ls last) ws /\ length ws = length (lines_of ls last) /\ forall w, In w ws -> w = [] \/ w = [10].
Proof.
  intros He H. assert (L : ~ In 10 last /\ ~ In 13 last).
  { unfold lines_of in H. destruct last as [|c r]; [split; intros []|]. apply H, in_or_app. right. now left. }
  rewrite (univ_ended e ls last He); [|intros l I; split; apply (H l); apply in_or_app; now left|apply L|apply L].
  rewrite read_ended by (intros l I; apply (H l); apply in_or_app; now left). rewrite (read_last last) by apply L.
  exists (repeat [10] (length ls) ++ match last with [] => [] | _ => [[]] end). unfold lines_of. split; [|split].
  - clear. induction ls as [|l ls IH]; cbn; [destruct last; cbn; rewrite ?app_nil_r; reflexivity|]. f_equal. exact IH.
  - rewrite !app_length, repeat_length. destruct last; reflexivity.
  - intros w I. apply in_app_or in I as [I|I]; [right; eapply repeat_spec; eauto|]. destruct last; [destruct I|]. destruct I as [<- |[]]. now left.
Qed.
Lemma find_skip L : (forall l, In l L -> ~ version_line l) -> find_version L = None.
Proof.
  induction L as [|l L IH]; intros H; [reflexivity|]. cbn [find_version]. destruct (startswith (lit "__version__") l) eqn:E; [exfalso; apply (H l); [now left|now apply version_iff]|].
  apply IH. intros k I. apply H. now right.
Qed.
Lemma find_app L l R : (forall k, In k L -> ~ version_line k) -> version_line l -> find_version (L ++ l :: R) = Some (strip (unquote (split_last l))).
Proof.
  induction L as [|k L IH]; intros H V; cbn [app find_version].
  - apply version_iff in V. now rewrite V.
  - destruct (startswith (lit "__version__") k) eqn:E; [exfalso; apply (H k); [now left|now apply version_iff]|]. apply IH; [|exact V]. intros j I. apply H. now right.
Qed.
Lemma in_map2 L ws x : In x (map2 (@app Z) L ws) -> exists l w, x = l ++ w /\ In l L /\ In w ws.
Proof. revert ws. induction L as [|l L IH]; intros [|w ws] I; try destruct I. - subst x. exists l, w. cbn. auto. - destruct (IH ws H) as (l' & w' & A & B & C). exists l', w'. cbn. auto. Qed.

(** Whatever the line endings: without a line that begins with __version__ there is no version;
    otherwise the first such line counts, and the version is the part after its first equals
    sign (the whole line if it has none) without double quotes and outer white space. *)
Lemma c90_version : forall e ls last, eol e -> (forall l, In l (lines_of ls last) -> ~ In 10 l /\ ~ In 13 l) ->
  ((forall l, In l (lines_of ls last) -> ~ version_line l) -> version (ended e ls last) = None) /\
  (forall pre l post r u v, lines_of ls last = pre ++ l :: post -> (forall k, In k pre -> ~ version_line k) -> version_line l ->
    right_side l r -> unquoted r u -> stripped u v -> version (ended e ls last) = Some v).
Proof.
  intros e ls last He H. destruct (lines_read e ls last He H) as (ws & R & L & W). unfold version. rewrite R. split.
  - intros N. apply find_skip. intros x I V. apply in_map2 in I as (l & w & -> & Il & Iw). apply (N l Il). eapply version_nl; [apply H, Il|exact V|now apply W].
  - intros pre l post r u v E N V Rs U St. rewrite E in *. clear R.
    assert (X : exists wp w wq, ws = wp ++ w :: wq /\ length wp = length pre).
    { exists (firstn (length pre) ws). rewrite app_length in L. cbn in L. destruct (skipn (length pre) ws) as [|w wq] eqn:K.
      - exfalso. apply (f_equal (@length _)) in K. rewrite skipn_length in K. cbn in K. lia.
      - exists w, wq. split; [rewrite <- K; symmetry; apply firstn_skipn|rewrite firstn_length; lia]. }
    destruct X as (wp & w & wq & -> & Lp). assert (Q : map2 (@app Z) (pre ++ l :: post) (wp ++ w :: wq) = map2 (@app Z) pre wp ++ (l ++ w) :: map2 (@app Z) post wq).
    { clear - Lp. revert wp Lp. induction pre as [|a pre IH]; intros [|b wp] Lp; try discriminate Lp; [reflexivity|]. cbn. f_equal. apply IH. now injection Lp. }
    rewrite Q. assert (Ww : w = [] \/ w = [10]) by (apply W, in_or_app; right; now left).
    rewrite find_app; [|intros k I Vk; apply in_map2 in I as (k' & w' & -> & Ik & Iw); apply (N k' Ik); eapply version_nl; [apply (H k'), in_or_app; now left|exact Vk|apply W, in_or_app; now left]|destruct V as (t & ->); exists (t ++ w); now rewrite app_assoc].
    f_equal. apply strip_fun. assert (Sl : split_last (l ++ w) = r ++ w).
    { unfold split_last. destruct Rs as [(Ne & ->)|(a & -> & Ne)].
      - rewrite after_none; [reflexivity|]. intros I. apply in_app_or in I as [I|I]; [auto|]. destruct Ww as [-> | ->]; [destruct I|]. destruct I as [I|[]]. discriminate I.
      - rewrite <- app_assoc. cbn [app]. now rewrite after_some. }
    rewrite Sl. unfold unquote. rewrite filter_app. fold (unquote r). rewrite <- (unquoted_fun r u U).
    destruct St as (w1 & w2 & -> & A & B). exists w1, (w2 ++ w). split; [destruct Ww as [-> | ->]; cbn; rewrite <- ?app_assoc; reflexivity|]. split; [|exact B].
    intros c I. rewrite app_assoc in I. apply in_app_or in I as [I|I]; [auto|]. destruct Ww as [-> | ->]; [destruct I|]. destruct I as [<- |[]]. cbn. tauto.
Qed.
(** In particular a line that assigns a version in double quotes gives that version. *)
Lemma c90_plain : forall e ls last pre post a b c v, eol e -> (forall l, In l (lines_of ls last) -> ~ In 10 l /\ ~ In 13 l) ->
  lines_of ls last = pre ++ (lit "__version__" ++ a ++ [61] ++ b ++ [34] ++ v ++ [34] ++ c) :: post ->
  (forall k, In k pre -> ~ version_line k) -> (forall x, In x (a ++ b ++ c) -> In x spaces) ->
  ~ In 34 v -> (forall x r, v = x :: r \/ v = r ++ [x] -> ~ In x spaces) ->
  version (ended e ls last) = Some v.
Proof.
  intros e ls last pre post a b c v He H E N Sp Q V. destruct (c90_version e ls last He H) as (_ & T).
  assert (S34 : forall x, In x spaces -> x <> 34 /\ x <> 61) by (intros x I; cbn in I; split; intros ->; decompose [or] I; discriminate || contradiction).
  assert (Un : forall t, ~ In 34 t -> unquoted t t) by (intros t; induction t as [|x t IH]; intros Nq; constructor; [intros ->; apply Nq; now left|apply IH; intros I; apply Nq; now right]).
  assert (Ua : forall s s' t t', unquoted s s' -> unquoted t t' -> unquoted (s ++ t) (s' ++ t')) by (induction 1; intros; cbn; auto using unquoted).
  eapply (T pre _ post (b ++ [34] ++ v ++ [34] ++ c) (b ++ v ++ c) v E N).
  - eexists. reflexivity.
  - right. exists (lit "__version__" ++ a). split; [now rewrite <- app_assoc|]. intros I. apply in_app_or in I as [I|I]; [vm_compute in I; decompose [or] I; discriminate || contradiction|].
    destruct (S34 61) as (_ & X); [apply Sp, in_or_app; auto|contradiction].
  - apply Ua; [apply Un; intros I; destruct (S34 34) as (X & _); [apply Sp, in_or_app; right; apply in_or_app; auto|contradiction]|]. cbn [app]. constructor. apply Ua; [now apply Un|]. constructor. apply Un. intros I. destruct (S34 34) as (X & _); [apply Sp, in_or_app; right; apply in_or_app; auto|contradiction].
  - exists b, c. split; [reflexivity|]. split; [intros x I; apply Sp, in_or_app; auto|]. split; intros x r R; apply (V x r); auto.
Qed.

(** [potential(galaxy)] without a backend works in every installation, on readthedocs (where
    the Fortran module is not built) or if the module cannot be loaded with the numpy backend, otherwise with Fortran; and the Fortran backend asked for by name
    works in exactly the installations where it is the default. *)
Lemma c90_default : forall (W S : Num) (cast : W -> S) (lift : S -> W) (G : S) junk rtd system loads (g : galaxy W),
  constructible g -> g_haspot g = false ->
  let have := have_module (extensions rtd system) loads in
  (exists h, potential_default cast lift G junk have g = Ok h) /\
  (rtd = Some "True"%string -> default_backend have = "numpy"%string) /\
  ((forall x, loads x = false) -> default_backend have = "numpy"%string) /\ (rtd <> Some "True"%string -> (forall x, loads x = true) -> default_backend have = "fortran"%string) /\
  ((exists h, potential cast lift (backend_table G have junk) "fortran" g = Ok h) <-> default_backend have = "fortran"%string).
Proof.
  intros W S cast lift G junk rtd system loads g Hg Hp have. destruct (c19_backends W S cast lift G junk g Hg Hp) as (A & B & C).
  split; [|split; [|split; [|split]]].
  - unfold potential_default. destruct have; [exact A|apply B].
  - intros R. unfold have, extensions. rewrite R. reflexivity.
  - intros R. replace have with false; [reflexivity|]. symmetry. unfold have, have_module. apply Bool.not_true_is_false. intros H. apply existsb_exists in H as (x & _ & H). rewrite R, Bool.andb_false_r in H. discriminate H.
  - intros R L. replace have with true; [reflexivity|]. symmetry. unfold have, have_module, extensions. destruct rtd as [v|]; [destruct (String.eqb_spec v "True") as [->|_]; [congruence|]|]; cbn [existsb x_name]; rewrite L; reflexivity.
  - destruct have; [split; [reflexivity|intros _; exact A]|]. rewrite C. split; [intros (h & E); discriminate E|intros E; discriminate E].
Qed.

(** The one compiled module is there except on readthedocs, is compiled with OpenMP and linked with
    its library, and has the Fortran and C libraries linked statically exactly on Windows. *)
Lemma c90_extension : forall rtd system, (extensions rtd system = [] <-> rtd = Some "True"%string) /\ (length (extensions rtd system) <= 1)%nat /\
  forall x, In x (extensions rtd system) -> x_name x = "galaxychop.utils.fortran.potential"%string /\ In "-fopenmp"%string (x_compile x) /\ In "-lgomp"%string (x_link x) /\
    (In "-static-libgfortran"%string (x_link x) <-> system = "Windows"%string) /\ (In "-static-libgcc"%string (x_link x) <-> system = "Windows"%string).
Proof.
  intros rtd system. assert (R : (match rtd with Some v => (v =? "True")%string | None => false end) = true <-> rtd = Some "True"%string).
  { destruct rtd as [v|]; [|split; discriminate]. rewrite String.eqb_eq. split; congruence. }
  unfold extensions. cbv zeta. destruct (match rtd with Some v => (v =? "True")%string | None => false end).
  - split; [tauto|]. split; [cbn; lia|]. intros x [].
  - split; [split; [discriminate|intros H; apply R in H; discriminate H]|]. split; [cbn; lia|]. intros x [<-|[]]. cbn [x_name x_compile x_link].
    destruct (String.eqb_spec system "Windows") as [->|Ns]; cbn [In]; intuition (congruence || discriminate).
Qed.

(** Not every string literal that Python reads as v is understood: single quotes and comments
    after the value become part of the version. *)
Lemma c90_literal_refuted : exists v : text, ~ In 34 v /\
  version (lit "__version__ = '" ++ v ++ lit "'") = Some (lit "'" ++ v ++ lit "'") /\
  version (lit "__version__ = " ++ [34] ++ v ++ [34] ++ lit "  # beta") = Some (v ++ lit "  # beta").
Proof. exists (lit "0.3"). split; [vm_compute; intuition discriminate|]. vm_compute. auto. Qed.

(** The file of the repository (shortened), with CR LF at the ends of the lines. *)
Definition init_lines : list text := [lit "# License: MIT"; []; lit "# the version"; lit "__version__ = " ++ [34] ++ lit "0.3.dev0" ++ [34]; []; lit "from .data import *  # noqa"].
Example ex_c90 : version (ended [13; 10] init_lines []) = Some (lit "0.3.dev0") /\ version (ended [10] [lit "version = 1"] (lit "#__version__")) = None.
Proof.
  split; [|vm_compute; reflexivity].
  apply (c90_plain [13; 10] init_lines [] [lit "# License: MIT"; []; lit "# the version"] [[]; lit "from .data import *  # noqa"] [32] [32] [] (lit "0.3.dev0")).
  - right. now left.
  - intros l I. cbn [lines_of init_lines app] in I. repeat (destruct I as [<- |I]; [vm_compute; split; intuition discriminate|]). destruct I.
  - reflexivity.
  - intros k I (r & E). repeat (destruct I as [<- |I]; [vm_compute in E; discriminate E|]). destruct I.
  - intros x I. cbn in I. decompose [or] I; subst; try contradiction; vm_compute; tauto.
  - vm_compute. intuition discriminate.
  - intros x r [E|E].
    + vm_compute in E. injection E as <- _. vm_compute. intuition discriminate.
    + apply (f_equal (fun l => last l 0)) in E. rewrite last_last in E. vm_compute in E. subst x. vm_compute. intuition discriminate.
Qed.
(** A galaxy in an installation without the Fortran module. *)
Example ex_c90_default : exists g h, galP = Ok g /\ potential_default (W:=F64) (S:=F32) to32 to64 n1 junk0 (have_module (extensions None "Windows") (fun _ => false)) g = Ok h /\
  default_backend (have_module (extensions (Some "False"%string) "Linux") (fun _ => true)) = "fortran"%string.
Proof.
  destruct galP_fields as (g & E & Hg & Hp & _). destruct (c90_default F64 F32 to32 to64 n1 junk0 None "Windows" (fun _ => false) g Hg Hp) as ((h & H) & _).
  exists g, h. split; [exact E|]. split; [exact H|reflexivity].
Qed.
