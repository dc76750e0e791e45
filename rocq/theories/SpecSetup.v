(** Specification of what setup.py reads off (C90). *)
From Verif Require Import Py Header SpecHeader Setup.
Local Open Scope Z_scope.

(** The line assigns to a name that begins with __version__. *)
Definition version_line (l : text) : Prop := exists r, l = lit "__version__" ++ r.
(** [v] is [t] without the white space at both ends. *)
Definition stripped (t v : text) : Prop :=
  exists w w', t = w ++ v ++ w' /\ (forall c, In c (w ++ w') -> In c spaces) /\
    (forall c r, v = c :: r -> ~ In c spaces) /\ (forall c r, v = r ++ [c] -> ~ In c spaces).
(** [r] is what follows the first equals sign of [l], or [l] if there is none. *)
Definition right_side (l r : text) : Prop :=
  (~ In 61 l /\ r = l) \/ exists a, l = a ++ 61 :: r /\ ~ In 61 a.
(** [u] is [t] without its double quotes. *)
Inductive unquoted : text -> text -> Prop :=
| uq_nil : unquoted [] []
| uq_quote t u : unquoted t u -> unquoted (34 :: t) u
| uq_other c t u : c <> 34 -> unquoted t u -> unquoted (c :: t) (c :: u).
