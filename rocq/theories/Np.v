(** One-dimensional numpy arrays as lists: the operations used by galaxy-chop. *)
From Verif Require Import Py Num.

(** Element-wise map of two equally long arrays (extra elements are dropped; callers
    that could see unequal lengths go through [bop]) (numpy arrays of one length, as in _align.py 27). *)
Fixpoint map2 {A B C} (f : A -> B -> C) (a : list A) (b : list B) : list C :=
  match a, b with
  | x :: a', y :: b' => f x y :: map2 f a' b'
  | _, _ => []
  end.

(** numpy binary ufunc on 1-D arrays with broadcasting: equal lengths, or one of
    them of length 1; otherwise "operands could not be broadcast" (ValueError) (data.py 134-165). *)
Definition bop {A B C} (f : A -> B -> C) (a : list A) (b : list B) : res (list C) :=
  if (length a =? length b)%nat then Ok (map2 f a b)
  else match a, b with
       | [x], _ => Ok (map (f x) b)
       | _, [y] => Ok (map (fun x => f x y) a)
       | _, _ => Raise ValueError
       end.

(** [a[mask]] for a boolean array of the same length (_circ.py 124, _align.py 65-67). *)
Fixpoint bmask {A} (mask : list bool) (a : list A) : list A :=
  match mask, a with
  | b :: mask', x :: a' => if b then x :: bmask mask' a' else bmask mask' a'
  | _, _ => []
  end.

(** [np.where(mask)[0]] / [np.flatnonzero]: indices of the true entries, from [i] (_circ.py 121, 188). *)
Fixpoint where_from (i : nat) (mask : list bool) : list nat :=
  match mask with
  | [] => []
  | b :: mask' => if b then i :: where_from (S i) mask' else where_from (S i) mask'
  end.
(** [np.where(mask)] (_circ.py 121, 188). *)
Definition where_ (mask : list bool) : list nat := where_from 0 mask.

(** Number of true entries (_circ.py 168). *)
Definition count (mask : list bool) : nat := length (filter (fun b => b) mask).

(** [a[i] = v] with a valid index (_circ.py 137-164). *)
Fixpoint upd {A} (a : list A) (i : nat) (v : A) : list A :=
  match a, i with
  | [], _ => []
  | _ :: a', O => v :: a'
  | x :: a', S i' => x :: upd a' i' v
  end.

(** Fancy assignment [a[idx] = vs] with integer indices, left to right; an index out
    of range raises IndexError.  ([vs] has the length of [idx] in every use.) (_circ.py 207-210). *)
Fixpoint scatter {A} (a : list A) (idx : list nat) (vs : list A) : res (list A) :=
  match idx, vs with
  | i :: idx', v :: vs' =>
      if (i <? length a)%nat then scatter (upd a i v) idx' vs' else Raise IndexError
  | _, _ => Ok a
  end.

(** Boolean-mask assignment [a[mask] = vs]: the k-th selected entry receives [vs[k]].
    The number of values must be the number of selected entries (a single value is
    broadcast), otherwise ValueError (_base.py 434, 481). *)
Fixpoint mask_fill {A} (mask : list bool) (a vs : list A) : list A :=
  match mask, a with
  | b :: mask', x :: a' =>
      if b then match vs with
                | v :: vs' => v :: mask_fill mask' a' vs'
                | [] => x :: mask_fill mask' a' []
                end
      else x :: mask_fill mask' a' vs
  | _, _ => a
  end.
(** [a[mask] = values] (_base.py 434, 481). *)
Definition mask_assign {A} (a : list A) (mask : list bool) (vs : list A) : res (list A) :=
  if (length vs =? count mask)%nat then Ok (mask_fill mask a vs)
  else match vs with
       | [v] => Ok (mask_fill mask a (repeat v (count mask)))
       | _ => Raise ValueError
       end.

(** [np.flip]/reverse, [np.concatenate] are [rev] and [++]. *)

(** ** Facts *)

Lemma map2_length {A B C} (f : A -> B -> C) a b :
  length (map2 f a b) = Nat.min (length a) (length b).
Proof. revert b; induction a as [|x a IH]; intros [|y b]; simpl; auto. Qed.

Lemma map2_nth {A B C} (f : A -> B -> C) a b i :
  nth_error (map2 f a b) i =
  match nth_error a i, nth_error b i with Some x, Some y => Some (f x y) | _, _ => None end.
Proof.
  revert b i; induction a as [|x a IH]; intros [|y b] [|i]; simpl; auto.
  now destruct (nth_error a i).
Qed.

Lemma map2_map {A B C A' B'} (f : A -> B -> C) (g : A' -> A) (h : B' -> B) a b :
  map2 f (map g a) (map h b) = map2 (fun x y => f (g x) (h y)) a b.
Proof. revert b; induction a as [|x a IH]; intros [|y b]; simpl; congruence. Qed.

Lemma map_map2 {A B C D} (g : C -> D) (f : A -> B -> C) a b :
  map g (map2 f a b) = map2 (fun x y => g (f x y)) a b.
Proof. revert b; induction a as [|x a IH]; intros [|y b]; simpl; congruence. Qed.

Lemma map2_ext {A B C} (f g : A -> B -> C) a b :
  (forall x y, f x y = g x y) -> map2 f a b = map2 g a b.
Proof. intros H; revert b; induction a as [|x a IH]; intros [|y b]; simpl; f_equal; auto. Qed.

Lemma bop_eq {A B C} (f : A -> B -> C) a b :
  length a = length b -> bop f a b = Ok (map2 f a b).
Proof. intros H; unfold bop. rewrite H, Nat.eqb_refl. reflexivity. Qed.

Lemma bop_raise {A B C} (f : A -> B -> C) a b e : bop f a b = Raise e -> e = ValueError.
Proof.
  unfold bop. destruct (length a =? length b)%nat; [discriminate|].
  destruct a as [|x [|x' a]], b as [|y [|y' b]]; intros [=]; auto.
Qed.

Lemma bmask_app {A} m m' (a a' : list A) :
  length m = length a -> bmask (m ++ m') (a ++ a') = bmask m a ++ bmask m' a'.
Proof.
  revert a; induction m as [|b m IH]; intros [|x a]; simpl; intros H; try discriminate; auto.
  injection H as H. destruct b; simpl; [f_equal|]; auto.
Qed.

Lemma bmask_length {A} m (a : list A) : length m = length a -> length (bmask m a) = count m.
Proof.
  unfold count. revert a; induction m as [|b m IH]; intros [|x a]; simpl; intros H; try discriminate; auto.
  injection H as H. destruct b; simpl; auto.
Qed.

Lemma bmask_map {A} (f : A -> bool) (a : list A) : bmask (map f a) a = filter f a.
Proof. induction a as [|x a IH]; simpl; auto. destruct (f x); congruence. Qed.

Lemma bmask_map_map {A B} (f : A -> bool) (g : A -> B) (a : list A) :
  bmask (map f a) (map g a) = map g (filter f a).
Proof. induction a as [|x a IH]; simpl; auto. destruct (f x); simpl; congruence. Qed.

Lemma upd_length {A} (a : list A) i v : length (upd a i v) = length a.
Proof. revert i; induction a as [|x a IH]; intros [|i]; simpl; auto. Qed.

Lemma upd_nth {A} (a : list A) i v j :
  (i < length a)%nat ->
  nth_error (upd a i v) j = if (j =? i)%nat then Some v else nth_error a j.
Proof.
  revert i j; induction a as [|x a IH]; intros [|i] [|j]; simpl; intros H; try lia; auto.
  apply IH. lia.
Qed.

Lemma scatter_length {A} (a : list A) idx vs r : scatter a idx vs = Ok r -> length r = length a.
Proof.
  revert a vs; induction idx as [|i idx IH]; intros a [|v vs]; simpl; intros H;
    try (injection H as <-; reflexivity).
  destruct (i <? length a)%nat; [|discriminate].
  apply IH in H. now rewrite upd_length in H.
Qed.

Lemma mask_fill_length {A} m (a vs : list A) : length (mask_fill m a vs) = length a.
Proof.
  revert a vs; induction m as [|b m IH]; intros [|x a] vs; simpl; auto.
  destruct b; [destruct vs|]; simpl; auto.
Qed.

Lemma where_from_length i m : length (where_from i m) = count m.
Proof. unfold count; revert i; induction m as [|[] m IH]; intros i; simpl; auto. Qed.

Lemma where_from_In i m k :
  In k (where_from i m) <-> (i <= k)%nat /\ nth_error m (k - i) = Some true.
Proof.
  revert i; induction m as [|b m IH]; intros i; simpl.
  - split; [tauto|]. intros [_ H]. destruct (k - i)%nat; discriminate.
  - assert (E : In k (where_from (S i) m) <-> (i < k)%nat /\ nth_error (b :: m) (k - i) = Some true).
    { rewrite IH. split; intros [H1 H2]; (split; [lia|]).
      - replace (k - i)%nat with (S (k - S i)) by lia. exact H2.
      - replace (k - i)%nat with (S (k - S i)) in H2 by lia. exact H2. }
    destruct b; simpl In; rewrite E.
    + split.
      * intros [->|[H1 H2]]; [|split; [lia|assumption]].
        rewrite Nat.sub_diag; simpl; auto.
      * intros [H1 H2]. destruct (Nat.eq_dec i k); [auto|]. right; split; [lia|assumption].
    + split; intros [H1 H2]; (split; [lia|assumption]) || idtac.
      split; [|assumption]. destruct (Nat.eq_dec i k) as [->|]; [|lia].
      rewrite Nat.sub_diag in H2; discriminate.
Qed.

Lemma where_In m k : In k (where_ m) <-> nth_error m k = Some true.
Proof. unfold where_. rewrite where_from_In, Nat.sub_0_r. split; [tauto|]. split; [lia|auto]. Qed.

Lemma nth_error_ext {A} (a b : list A) : (forall i, nth_error a i = nth_error b i) -> a = b.
Proof.
  revert b; induction a as [|x a IH]; intros [|y b] H; auto.
  - specialize (H 0%nat); discriminate.
  - specialize (H 0%nat); discriminate.
  - f_equal; [specialize (H 0%nat); now injection H|].
    apply IH. intros i. exact (H (S i)).
Qed.

