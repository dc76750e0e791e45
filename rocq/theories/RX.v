(** Exact arithmetic: the reals extended with +inf, -inf and NaN. *)
From Coq Require Export Reals Lra Psatz.
From Flocq Require Import Core.
From Verif Require Import Py Num.
Local Open Scope R_scope.

Inductive xr : Type := XR (r : R) | XPInf | XNInf | XNaN.

(** Sign-directed infinity. *)
Definition xinf (s : comparison) : xr :=
  match s with Lt => XNInf | Eq => XNaN | Gt => XPInf end.
(** Sign of an extended real as a comparison with 0 ([Eq] also for NaN). *)
Definition xsgn (a : xr) : comparison :=
  match a with XR r => Rcompare r 0 | XPInf => Gt | XNInf => Lt | XNaN => Eq end.
Definition csmul (a b : comparison) : comparison :=
  match a, b with
  | Eq, _ | _, Eq => Eq
  | Lt, Lt | Gt, Gt => Gt
  | _, _ => Lt
  end.

Definition xopp (a : xr) : xr :=
  match a with XR r => XR (- r) | XPInf => XNInf | XNInf => XPInf | XNaN => XNaN end.
Definition xadd (a b : xr) : xr :=
  match a, b with
  | XNaN, _ | _, XNaN => XNaN
  | XR r, XR s => XR (r + s)
  | XPInf, XNInf | XNInf, XPInf => XNaN
  | XPInf, _ | _, XPInf => XPInf
  | XNInf, _ | _, XNInf => XNInf
  end.
Definition xsub (a b : xr) : xr := xadd a (xopp b).
Definition xmul (a b : xr) : xr :=
  match a, b with
  | XNaN, _ | _, XNaN => XNaN
  | XR r, XR s => XR (r * s)
  | _, _ => xinf (csmul (xsgn a) (xsgn b))
  end.
(** Division; [x/0] is the infinity of [x]'s sign (there is no negative zero here). *)
Definition xdiv (a b : xr) : xr :=
  match a, b with
  | XNaN, _ | _, XNaN => XNaN
  | XR r, XR s => if Req_EM_T s 0 then xinf (Rcompare r 0) else XR (r / s)
  | XR _, _ => XR 0
  | _, XR s => xinf (csmul (xsgn a) (if Req_EM_T s 0 then Gt else Rcompare s 0))
  | _, _ => XNaN
  end.
Definition xabs (a : xr) : xr :=
  match a with XR r => XR (Rabs r) | XNaN => XNaN | _ => XPInf end.
Definition xsqrt (a : xr) : xr :=
  match a with
  | XR r => if Rlt_dec r 0 then XNaN else XR (sqrt r)
  | XPInf => XPInf
  | _ => XNaN
  end.
Definition xrint (a : xr) : xr :=
  match a with XR r => XR (IZR (ZnearestE r)) | _ => a end.
Definition xcmp (a b : xr) : option comparison :=
  match a, b with
  | XNaN, _ | _, XNaN => None
  | XR r, XR s => Some (Rcompare r s)
  | XPInf, XPInf | XNInf, XNInf => Some Eq
  | XPInf, _ | _, XNInf => Some Gt
  | XNInf, _ | _, XPInf => Some Lt
  end.
Definition xfin (a : xr) : bool := match a with XR _ => true | _ => false end.
Definition xceil (a : xr) : option Z := match a with XR r => Some (Zceil r) | _ => None end.

(** The exact instance. *)
Definition RX : Num :=
  {| car := xr; nadd := xadd; nsub := xsub; nmul := xmul; ndiv := xdiv;
     nopp := xopp; nabs := xabs; nsqrt := xsqrt; nrint := xrint; ncmp := xcmp;
     nfin := xfin; nofZ := fun z => XR (IZR z);
     nnan := XNaN; npinf := XPInf; nninf := XNInf; nceil := xceil;
     nsum := fold_right xadd (XR 0) |}.

(** Order on extended reals (false on NaN). *)
Definition xle (a b : xr) : Prop :=
  match a, b with
  | XNaN, _ | _, XNaN => False
  | XNInf, _ | _, XPInf => True
  | XR r, XR s => r <= s
  | _, _ => False
  end.
Definition xlt (a b : xr) : Prop :=
  match a, b with
  | XNaN, _ | _, XNaN => False
  | XR r, XR s => r < s
  | XNInf, XNInf | XPInf, XPInf => False
  | XNInf, _ | _, XPInf => True
  | _, _ => False
  end.

Ltac xdestr :=
  repeat match goal with
  | a : xr |- _ => destruct a
  | a : car RX |- _ => destruct a
  end.

Lemma xcmp_le a b :
  (match xcmp a b with Some Lt | Some Eq => true | _ => false end = true) <-> xle a b.
Proof.
  destruct a, b; simpl; try (split; (easy || intros; try discriminate; easy)).
  destruct (Rcompare_spec r r0); split; intros; try discriminate; try lra; reflexivity.
Qed.

Lemma xcmp_lt a b :
  (match xcmp a b with Some Lt => true | _ => false end = true) <-> xlt a b.
Proof.
  destruct a, b; simpl; try (split; (easy || intros; try discriminate; easy)).
  destruct (Rcompare_spec r r0); split; intros; try discriminate; try lra; reflexivity.
Qed.

Lemma xcmp_eq a b :
  (match xcmp a b with Some Eq => true | _ => false end = true) <-> (a = b /\ a <> XNaN).
Proof.
  destruct a, b; simpl; try (split; (easy || intros; try discriminate; easy)).
  destruct (Rcompare_spec r r0); split; intros K; try discriminate; try reflexivity.
  - destruct K as [[= K] _]; lra.
  - subst; split; [reflexivity|discriminate].
  - destruct K as [[= K] _]; lra.
Qed.

Lemma xle_refl a : a <> XNaN -> xle a a.
Proof. destruct a; simpl; try easy. lra. Qed.
Lemma xle_trans a b c : xle a b -> xle b c -> xle a c.
Proof. destruct a, b, c; simpl; try easy; lra. Qed.
Lemma xle_antisym a b : xle a b -> xle b a -> a = b.
Proof. destruct a, b; simpl; try easy. intros; f_equal; lra. Qed.
Lemma xlt_le a b : xlt a b -> xle a b.
Proof. destruct a, b; simpl; try easy. lra. Qed.
Lemma xle_total a b : a <> XNaN -> b <> XNaN -> xle a b \/ xlt b a.
Proof. destruct a, b; simpl; try easy; try tauto. lra. Qed.
Lemma xlt_not_le a b : xlt a b -> ~ xle b a.
Proof. destruct a, b; simpl; try easy. lra. Qed.
Lemma xle_nan_l a b : xle a b -> a <> XNaN.
Proof. destruct a; easy. Qed.
Lemma xle_nan_r a b : xle a b -> b <> XNaN.
Proof. destruct a, b; easy. Qed.
Lemma xle_lt_trans a b c : xle a b -> xlt b c -> xlt a c.
Proof. destruct a, b, c; simpl; try easy; lra. Qed.
Lemma xlt_le_trans a b c : xlt a b -> xle b c -> xlt a c.
Proof. destruct a, b, c; simpl; try easy; lra. Qed.
Lemma xlt_trans a b c : xlt a b -> xlt b c -> xlt a c.
Proof. destruct a, b, c; simpl; try easy; lra. Qed.
Lemma xle_lt_or_eq a b : xle a b -> xlt a b \/ a = b.
Proof. destruct a, b; simpl; try tauto. intros [H|H]; [auto | right; now f_equal]. Qed.

(** ** Numbers with rounding

    [Rounded N] says that every operation of [N] is the exact operation followed by
    a monotone rounding [rnd]; both the binary formats and [RX] itself satisfy it.
    Theorems proved from it hold bit for bit for IEEE arithmetic. *)
Record Rounded (N : Num) : Type := mkRounded {
  val : N -> xr;
  rnd : xr -> xr;
  intmax : Z;
  rnd_nan : rnd XNaN = XNaN;
  rnd_pinf : rnd XPInf = XPInf;
  rnd_ninf : rnd XNInf = XNInf;
  rnd_not_nan : forall a, rnd a = XNaN -> a = XNaN;
  rnd_mono : forall a b, xle a b -> xle (rnd a) (rnd b);
  rnd_opp : forall a, rnd (xopp a) = xopp (rnd a);
  rnd_val : forall x, rnd (val x) = val x;
  intmax_pos : (1024 <= intmax)%Z;
  rnd_int : forall z, (Z.abs z <= intmax)%Z -> rnd (XR (IZR z)) = XR (IZR z);
  val_add : forall x y, val (nadd x y) = rnd (xadd (val x) (val y));
  val_sub : forall x y, val (nsub x y) = rnd (xsub (val x) (val y));
  val_mul : forall x y, val (nmul x y) = rnd (xmul (val x) (val y));
  val_div : forall x y, val y <> XR 0 -> val (ndiv x y) = rnd (xdiv (val x) (val y));
  val_div0_nan : forall x y : N, val x = XR 0 -> val y = XR 0 -> val (ndiv x y) = XNaN;
  val_div0_inf : forall x y, val x <> XR 0 -> val x <> XNaN -> val y = XR 0 ->
                             val (ndiv x y) = XPInf \/ val (ndiv x y) = XNInf;
  val_div_nan : forall x y, val x = XNaN -> val (ndiv x y) = XNaN;
  val_opp : forall x, val (nopp x) = xopp (val x);
  val_abs : forall x, val (nabs x) = xabs (val x);
  val_sqrt : forall x, val (nsqrt x) = rnd (xsqrt (val x));
  val_rint : forall x, val (nrint x) = xrint (val x);
  val_cmp : forall x y, ncmp x y = xcmp (val x) (val y);
  val_fin : forall x, nfin x = xfin (val x);
  val_ofZ : forall z, val (nofZ z) = rnd (XR (IZR z));
  val_nnan : val nnan = XNaN;
  val_npinf : val npinf = XPInf;
  val_nninf : val nninf = XNInf;
  val_ceil : forall x, nceil x = xceil (val x);
  (* bit-level facts *)
  val_nan_inj : forall x y, val x = XNaN -> val y = XNaN -> x = y;
  val_inj : forall x y, val x = val y -> val x <> XR 0 -> x = y;
  sub_self : forall x : N, nfin x = true -> nsub x x = nofZ 0;
  sub_zero : forall x : N, nsub x (nofZ 0) = x;
  abs_zero : forall x : N, val x = XR 0 -> nabs x = nofZ 0;
  mul_opp : forall x y : N, nmul (nopp x) (nopp y) = nmul x y
}.
Arguments val {N} _ _.
Arguments rnd {N} _ _.
Arguments intmax {N} _.
Arguments rnd_nan {N} _.
Arguments rnd_pinf {N} _.
Arguments rnd_ninf {N} _.
Arguments rnd_not_nan {N} _.
Arguments rnd_mono {N} _.
Arguments rnd_opp {N} _.
Arguments rnd_val {N} _.
Arguments intmax_pos {N} _.
Arguments rnd_int {N} _.
Arguments val_add {N} _.
Arguments val_sub {N} _.
Arguments val_mul {N} _.
Arguments val_div {N} _.
Arguments val_div0_nan {N} _.
Arguments val_div0_inf {N} _.
Arguments val_div_nan {N} _.
Arguments val_opp {N} _.
Arguments val_abs {N} _.
Arguments val_sqrt {N} _.
Arguments val_rint {N} _.
Arguments val_cmp {N} _.
Arguments val_fin {N} _.
Arguments val_ofZ {N} _.
Arguments val_nnan {N} _.
Arguments val_npinf {N} _.
Arguments val_nninf {N} _.
Arguments val_ceil {N} _.
Arguments val_nan_inj {N} _.
Arguments val_inj {N} _.
Arguments sub_self {N} _.
Arguments sub_zero {N} _.
Arguments abs_zero {N} _.
Arguments mul_opp {N} _.

Lemma xsgn_opp a : xsgn (xopp a) = CompOpp (xsgn a).
Proof.
  destruct a as [r| | |]; simpl; try reflexivity.
  destruct (Rcompare_spec (- r) 0), (Rcompare_spec r 0); simpl; try reflexivity; lra.
Qed.
Lemma csmul_opp a b : csmul (CompOpp a) (CompOpp b) = csmul a b.
Proof. destruct a, b; reflexivity. Qed.
Lemma xmul_opp_opp a b : xmul (xopp a) (xopp b) = xmul a b.
Proof.
  unfold xmul. rewrite !xsgn_opp, csmul_opp. destruct a as [r| | |], b as [q| | |]; simpl; try reflexivity.
  f_equal. ring.
Qed.

Definition RX_rounded : Rounded RX.
Proof.
  refine {| val := (fun x : RX => x : xr); rnd := fun a => a; intmax := 2 ^ 53 |};
    simpl; try reflexivity; try (intros; assumption); try tauto; try lia.
  - intros x y Hx Hy; subst; simpl.
    destruct (Req_EM_T 0 0); [|lra]. rewrite Rcompare_Eq; reflexivity.
  - intros x y Hx Hn Hy; subst; simpl. destruct x; simpl; try (exfalso; congruence).
    + destruct (Req_EM_T 0 0); [|lra].
      destruct (Rcompare_spec r 0); simpl; auto. subst; congruence.
    + destruct (Req_EM_T 0 0); [|lra]. simpl; auto.
    + destruct (Req_EM_T 0 0); [|lra]. simpl; auto.
  - intros x y Hx; subst; simpl. now destruct y.
  - intros x y -> ->; reflexivity.
  - intros [r| | |]; simpl; try discriminate. intros _. unfold xsub; simpl. f_equal; lra.
  - intros [r| | |]; unfold xsub; simpl; try reflexivity. f_equal; lra.
  - intros x ->. simpl. now rewrite Rabs_R0.
  - exact xmul_opp_opp.
Defined.
