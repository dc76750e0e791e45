(** Property theorems. setup.py and the default backend (C90). Proofs are in SetupThms.v. *)
From Verif Require Import Py Num RX F64 Np Data Spec DataThms Ex Header SpecHeader HeaderThms Setup SpecSetup Potential PotThms AccThms SetupThms.
From Coq Require Import Lia.
Local Open Scope Z_scope.

(** Whatever the line endings: without a line that begins with __version__ there is no version;
    otherwise the first such line counts, and the version is the part after its first equals
    sign (the whole line if it has none) without double quotes and outer white space. *)
Theorem C90_version : forall e ls last, eol e -> (forall l, In l (lines_of ls last) -> ~ In 10 l /\ ~ In 13 l) ->
  ((forall l, In l (lines_of ls last) -> ~ version_line l) -> version (ended e ls last) = None) /\
  (forall pre l post r u v, lines_of ls last = pre ++ l :: post -> (forall k, In k pre -> ~ version_line k) -> version_line l ->
    right_side l r -> unquoted r u -> stripped u v -> version (ended e ls last) = Some v).
Proof. exact c90_version. Qed.
Print Assumptions C90_version.

(** In particular a line that assigns a version in double quotes gives that version. *)
Theorem C90_plain : forall e ls last pre post a b c v, eol e -> (forall l, In l (lines_of ls last) -> ~ In 10 l /\ ~ In 13 l) ->
  lines_of ls last = pre ++ (lit "__version__" ++ a ++ [61] ++ b ++ [34] ++ v ++ [34] ++ c) :: post ->
  (forall k, In k pre -> ~ version_line k) -> (forall x, In x (a ++ b ++ c) -> In x spaces) ->
  ~ In 34 v -> (forall x r, v = x :: r \/ v = r ++ [x] -> ~ In x spaces) ->
  version (ended e ls last) = Some v.
Proof. exact c90_plain. Qed.
Print Assumptions C90_plain.

(** [potential(galaxy)] without a backend works in every installation, on readthedocs (where
    the Fortran module is not built) or if the module cannot be loaded with the numpy backend, otherwise with Fortran; and the Fortran backend asked for by name
    works in exactly the installations where it is the default. *)
Theorem C90_default : forall (W S : Num) (cast : W -> S) (lift : S -> W) (G : S) junk rtd system loads (g : galaxy W),
  constructible g -> g_haspot g = false ->
  let have := have_module (extensions rtd system) loads in
  (exists h, potential_default cast lift G junk have g = Ok h) /\
  (rtd = Some "True"%string -> default_backend have = "numpy"%string) /\
  ((forall x, loads x = false) -> default_backend have = "numpy"%string) /\ (rtd <> Some "True"%string -> (forall x, loads x = true) -> default_backend have = "fortran"%string) /\
  ((exists h, potential cast lift (backend_table G have junk) "fortran" g = Ok h) <-> default_backend have = "fortran"%string).
Proof. exact c90_default. Qed.
Print Assumptions C90_default.

(** The one compiled module is there except on readthedocs, is compiled with OpenMP and linked with
    its library, and has the Fortran and C libraries linked statically exactly on Windows. *)
Theorem C90_extension : forall rtd system, (extensions rtd system = [] <-> rtd = Some "True"%string) /\ (length (extensions rtd system) <= 1)%nat /\
  forall x, In x (extensions rtd system) -> x_name x = "galaxychop.utils.fortran.potential"%string /\ In "-fopenmp"%string (x_compile x) /\ In "-lgomp"%string (x_link x) /\
    (In "-static-libgfortran"%string (x_link x) <-> system = "Windows"%string) /\ (In "-static-libgcc"%string (x_link x) <-> system = "Windows"%string).
Proof. exact c90_extension. Qed.
Print Assumptions C90_extension.

(** Not every string literal that Python reads as v is understood: single quotes and comments
    after the value become part of the version. *)
Theorem C90_literal_refuted : exists v : text, ~ In 34 v /\
  version (lit "__version__ = '" ++ v ++ lit "'") = Some (lit "'" ++ v ++ lit "'") /\
  version (lit "__version__ = " ++ [34] ++ v ++ [34] ++ lit "  # beta") = Some (v ++ lit "  # beta").
Proof. exact c90_literal_refuted. Qed.
Print Assumptions C90_literal_refuted.

Example EX_C90 : version (ended [13; 10] init_lines []) = Some (lit "0.3.dev0") /\ version (ended [10] [lit "version = 1"] (lit "#__version__")) = None.
Proof. exact ex_c90. Qed.

(** A galaxy in an installation without the Fortran module. *)
Example EX_C90_default : exists g h, galP = Ok g /\ potential_default (W:=F64) (S:=F32) to32 to64 n1 junk0 (have_module (extensions None "Windows") (fun _ => false)) g = Ok h /\
  default_backend (have_module (extensions (Some "False"%string) "Linux") (fun _ => true)) = "fortran"%string.
Proof. exact ex_c90_default. Qed.
