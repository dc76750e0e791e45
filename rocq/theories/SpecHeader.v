(** Specification vocabulary for the header checker, without its functions on texts. *)
From Verif Require Import Py Header.
Local Open Scope Z_scope.

(** The white space and the line boundaries of Python's [str]. *)
Definition spaces : list Z :=
  [9; 10; 11; 12; 13; 28; 29; 30; 31; 32; 133; 160; 5760; 8192; 8193; 8194; 8195; 8196; 8197; 8198; 8199; 8200; 8201; 8202; 8232; 8233; 8239; 8287; 12288].
Definition boundaries : list Z := [10; 11; 12; 13; 28; 29; 30; 133; 8232; 8233].

(** A line: no boundary in it. *)
Definition line (l : text) : Prop := forall c, In c l -> ~ In c boundaries.
(** [r] is [l] without the white space at its end. *)
Definition trims (l r : text) : Prop :=
  exists w, l = r ++ w /\ (forall c, In c w -> In c spaces) /\ forall r' c, r = r' ++ [c] -> ~ In c spaces.

(** The ways to end a line. *)
Definition eol (e : text) : Prop := e = [10] \/ e = [13; 10] \/ e = [13].
(** A text of lines that all end in [e], or all but the last. *)
Definition ended (e : text) (ls : list text) (last : text) : text := concat (map (fun l => l ++ e) ls) ++ last.
(** ... and its lines. *)
Definition lines_of (ls : list text) (last : text) : list text := ls ++ match last with [] => [] | _ => [last] end.

(** The files of a source, and whether it is accepted as one. *)
Definition files_of (s : source) : list nat := match s with Directory fs => fs | File p _ => [p] end.
Definition named (s : source) : Prop := match s with Directory _ => True | File _ name => exists stem, stem <> ""%string /\ name = (stem ++ ".py")%string end.
