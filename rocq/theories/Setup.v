(** Model of setup.py (version and extension) and of the choice of the default potential
    backend, utils/_potential.py 24-30 and 117. *)
From Coq Require Import ZArith List Bool String Ascii.
From Verif Require Import Py Num Np Data Potential Header.
Import ListNotations.
Local Open Scope Z_scope.

(** A literal as code points (setup.py 39-40). *)
Definition lit (s : string) : text := map (fun c => Z.of_nat (nat_of_ascii c)) (list_ascii_of_string s).

(** [line.startswith(p)], setup.py 39. *)
Fixpoint startswith (p l : text) : bool :=
  match p, l with
  | [], _ => true
  | c :: p, d :: l => (c =? d) && startswith p l
  | _ :: _, [] => false
  end.
(** The last part of [line.split] at one equals sign, setup.py 40: what follows the first equals sign, or everything. *)
Fixpoint after_eq (l : text) : option text :=
  match l with [] => None | c :: r => if c =? 61 then Some r else after_eq r end.
(** setup.py 40. *)
Definition split_last (l : text) : text := match after_eq l with Some r => r | None => l end.
(** [.replace] of double quotes by nothing and [.strip()], setup.py 40. *)
Definition unquote (l : text) : text := filter (fun c => negb (c =? 34)) l.
(** setup.py 40. *)
Definition strip (l : text) : text := rstrip (lstrip l).

(** setup.py 37-41: the loop over the lines of galaxychop/__init__.py; [None] means that
    [VERSION] stays undefined (and line 102 raises NameError). *)
Fixpoint find_version (ls : list text) : option text :=
  match ls with
  | [] => None
  | l :: r => if startswith (lit "__version__") l then Some (strip (unquote (split_last l))) else find_version r
  end.
(** setup.py 36-41. *)
Definition version (content : text) : option text := find_version (readlines (universal content)).

(** setup.py 72-93, 115: the compiled module, left out on readthedocs; [rtd] is the value of the
    environment variable READTHEDOCS, [system] that of [platform.system()]. *)
Record extension : Type := Ext { x_name : string; x_source : string; x_compile : list string; x_link : list string }.
(** setup.py 72-93, 115. *)
Definition extensions (rtd : option string) (system : string) : list extension :=
  let on_rtd := match rtd with Some v => (v =? "True")%string | None => false end in
  let on_windows := (system =? "Windows")%string in
  let link := if on_windows then ["-lgomp"; "-static"; "-static-libgfortran"; "-static-libgcc"]%string else ["-lgomp"%string] in
  if on_rtd then [] else [Ext "galaxychop.utils.fortran.potential" "potential.f95" ["-fopenmp"%string] link].

(** utils/_potential.py 24-27: the import of the compiled module works if it was built and can be
    loaded. *)
Definition have_module (exts : list extension) (loads : extension -> bool) : bool :=
  existsb (fun x => (x_name x =? "galaxychop.utils.fortran.potential")%string && loads x) exts.
(** utils/_potential.py 30. *)
Definition default_backend (have_f : bool) : string := if have_f then "fortran" else "numpy".
(** utils/_potential.py 117: [potential(galaxy)] in an installation. *)
Definition potential_default {W S : Num} (cast : W -> S) (lift : S -> W) (G : S) (junk : nat -> nat -> S)
  (have_f : bool) (g : galaxy W) : res (galaxy W) :=
  potential cast lift (backend_table G have_f junk) (default_backend have_f) g.
