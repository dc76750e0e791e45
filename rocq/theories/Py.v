(** Python-level vocabulary: exceptions as values, dictionaries, ASCII strings. *)
From Coq Require Export String Ascii.
From Coq Require Export List Arith ZArith Lia Bool Permutation.
From Coq Require Export ZifyBool ZifyNat.
Export ListNotations.
#[global] Open Scope list_scope.

(** ** Exceptions *)

(** The exception classes the modelled code can raise (the message is dropped). *)
Inductive exn : Type :=
| ValueError | TypeError | KeyError | IndexError | AttributeError
| ZeroDivisionError | OSError.

(** Result of a Python call: a value or an exception. *)
Inductive res (A : Type) : Type :=
| Ok (a : A)
| Raise (e : exn).
Arguments Ok {A} a.
Arguments Raise {A} e.

Definition bind {A B} (r : res A) (f : A -> res B) : res B :=
  match r with Ok a => f a | Raise e => Raise e end.

Notation "'do' x <- e ; f" := (bind e (fun x => f))
  (at level 200, x pattern, e at level 100, f at level 200, right associativity).

Definition rmap {A B} (f : A -> B) (r : res A) : res B :=
  match r with Ok a => Ok (f a) | Raise e => Raise e end.

Definition is_ok {A} (r : res A) : bool :=
  match r with Ok _ => true | Raise _ => false end.

(** [for x in l: f x], collecting results, first exception wins. *)
Fixpoint mapM {A B} (f : A -> res B) (l : list A) : res (list B) :=
  match l with
  | [] => Ok []
  | x :: l' => do y <- f x; do ys <- mapM f l'; Ok (y :: ys)
  end.

(** A guard: [if not b: raise e]. *)
Definition guard (b : bool) (e : exn) : res unit :=
  if b then Ok tt else Raise e.

(** ** Dictionaries (insertion ordered, as in Python >= 3.7) *)

Definition dict (V : Type) : Type := list (string * V).

Fixpoint dget {V} (d : dict V) (k : string) : option V :=
  match d with
  | [] => None
  | (k', v) :: d' => if String.eqb k k' then Some v else dget d' k
  end.

(** [d[k] = v]: overwrite in place, or append. *)
Fixpoint dset {V} (d : dict V) (k : string) (v : V) : dict V :=
  match d with
  | [] => [(k, v)]
  | (k', v') :: d' =>
      if String.eqb k k' then (k', v) :: d' else (k', v') :: dset d' k v
  end.

(** [d.pop(k, ...)], the removal part. *)
Fixpoint ddel {V} (d : dict V) (k : string) : dict V :=
  match d with
  | [] => []
  | (k', v') :: d' =>
      if String.eqb k k' then d' else (k', v') :: ddel d' k
  end.

(** [d.update(e)]. *)
Definition dupdate {V} (d e : dict V) : dict V :=
  fold_left (fun acc kv => dset acc (fst kv) (snd kv)) e d.

Definition dkeys {V} (d : dict V) : list string := map fst d.

(** [k in l] for a list of strings. *)
Definition smem (k : string) (l : list string) : bool := existsb (String.eqb k) l.

(** ** ASCII case conversion ([str.upper] / [str.lower] restricted to ASCII) *)

Definition ascii_upper (c : ascii) : ascii :=
  let n := nat_of_ascii c in
  if (97 <=? n)%nat && (n <=? 122)%nat then ascii_of_nat (n - 32) else c.

Definition ascii_lower (c : ascii) : ascii :=
  let n := nat_of_ascii c in
  if (65 <=? n)%nat && (n <=? 90)%nat then ascii_of_nat (n + 32) else c.

Fixpoint upper (s : string) : string :=
  match s with
  | EmptyString => EmptyString
  | String c s' => String (ascii_upper c) (upper s')
  end.

Fixpoint lower (s : string) : string :=
  match s with
  | EmptyString => EmptyString
  | String c s' => String (ascii_lower c) (lower s')
  end.

(** ** Basic facts *)

Lemma bind_ok {A B} (r : res A) (f : A -> res B) b :
  bind r f = Ok b -> exists a, r = Ok a /\ f a = Ok b.
Proof. destruct r as [a|e]; simpl; intros H; [eauto | discriminate]. Qed.

Lemma bind_raise {A B} (r : res A) (f : A -> res B) e :
  bind r f = Raise e -> r = Raise e \/ exists a, r = Ok a /\ f a = Raise e.
Proof. destruct r as [a|e']; simpl; intros H; [right; eauto | left; congruence]. Qed.

Lemma Forall2_length {A B} (R : A -> B -> Prop) l1 l2 :
  Forall2 R l1 l2 -> List.length l1 = List.length l2.
Proof. induction 1; simpl; congruence. Qed.

Lemma mapM_ok {A B} (f : A -> res B) l ys :
  mapM f l = Ok ys -> Forall2 (fun x y => f x = Ok y) l ys.
Proof.
  revert ys; induction l as [|x l IH]; simpl; intros ys H.
  - injection H as <-. constructor.
  - apply bind_ok in H as (y & Hy & H). apply bind_ok in H as (ys' & Hys & H).
    injection H as <-. constructor; auto.
Qed.

Lemma mapM_total {A B} (f : A -> res B) (g : A -> B) l :
  (forall x, In x l -> f x = Ok (g x)) -> mapM f l = Ok (map g l).
Proof.
  induction l as [|x l IH]; simpl; intros H; [reflexivity|].
  rewrite H by auto. simpl. rewrite IH by auto. reflexivity.
Qed.

Lemma dget_dset_same {V} (d : dict V) k v : dget (dset d k v) k = Some v.
Proof.
  induction d as [|[k' v'] d IH]; simpl; [now rewrite String.eqb_refl|].
  destruct (String.eqb k k') eqn:E; simpl; rewrite E; auto.
Qed.

Lemma dget_dset_other {V} (d : dict V) k k' v :
  k' <> k -> dget (dset d k v) k' = dget d k'.
Proof.
  intros Hn; induction d as [|[k2 v2] d IH]; simpl.
  - destruct (String.eqb_spec k' k); congruence.
  - destruct (String.eqb_spec k k2) as [->|]; simpl;
      destruct (String.eqb_spec k' k2); congruence.
Qed.

Lemma dget_dset {V} (d : dict V) k k' v :
  dget (dset d k v) k' = if String.eqb k' k then Some v else dget d k'.
Proof.
  destruct (String.eqb_spec k' k) as [->|]; [apply dget_dset_same | now apply dget_dset_other].
Qed.

Lemma dget_none_notin {V} (d : dict V) k : dget d k = None <-> ~ In k (dkeys d).
Proof.
  induction d as [|[k' v'] d IH]; simpl; [tauto|].
  destruct (String.eqb_spec k k') as [->|Hn].
  - split; [discriminate|]. intros H; exfalso; apply H; auto.
  - rewrite IH. split; intros H; [intros [E|E]; [congruence|auto] | tauto].
Qed.

Lemma dget_app {V} (d e : dict V) k :
  dget (d ++ e) k = match dget d k with Some v => Some v | None => dget e k end.
Proof.
  induction d as [|[k' v'] d IH]; simpl; [reflexivity|].
  destruct (String.eqb k k'); auto.
Qed.

(** [update]: the last binding of [e] for [k] wins, otherwise [d]'s. *)
Lemma dget_dupdate {V} (e d : dict V) k :
  dget (dupdate d e) k = match dget (rev e) k with Some v => Some v | None => dget d k end.
Proof.
  unfold dupdate. revert d; induction e as [|[k1 v1] e IH]; intros d; simpl; [reflexivity|].
  rewrite IH, dget_app. simpl. rewrite dget_dset.
  destruct (dget (rev e) k); [reflexivity|].
  now destruct (String.eqb k k1).
Qed.

Lemma dkeys_dset {V} (d : dict V) k v :
  dkeys (dset d k v) = if smem k (dkeys d) then dkeys d else dkeys d ++ [k].
Proof.
  induction d as [|[k' v'] d IH]; simpl; [reflexivity|].
  destruct (String.eqb_spec k k') as [->|Hn]; simpl; [reflexivity|].
  unfold dkeys in *; rewrite IH. unfold smem; simpl.
  destruct (existsb (String.eqb k) (map fst d)); reflexivity.
Qed.

Lemma smem_In k l : smem k l = true <-> In k l.
Proof.
  unfold smem; rewrite existsb_exists; split.
  - intros (x & Hx & E). apply String.eqb_eq in E; congruence.
  - intros H; exists k; split; [auto | apply String.eqb_refl].
Qed.

Lemma smem_false k l : smem k l = false <-> ~ In k l.
Proof.
  rewrite <- smem_In. destruct (smem k l); split; intros H; auto; try discriminate.
  exfalso; apply H; reflexivity.
Qed.

Lemma dget_In {V} (d : dict V) k v : dget d k = Some v -> In (k, v) d.
Proof.
  induction d as [|[k' v'] d IH]; simpl; [discriminate|].
  destruct (String.eqb_spec k k') as [->|Hn]; [intros [= <-]; auto | auto].
Qed.

