(** Property theorems. The header checker (C59). Proofs are in HeaderThms.v. *)
From Verif Require Import Py Header SpecHeader HeaderThms.
From Coq Require Import Lia.
Local Open Scope Z_scope.

(** A template whose last line is not blank: a file is accepted if and only if its first lines,
    without the white space at their ends, are the lines of the template without theirs. The
    two texts may use different line endings. *)
Theorem C59_header : forall e ls last T t e' hs last', eol e -> eol e' ->
  (forall l, In l (lines_of ls last) -> line l) -> Forall2 trims (lines_of ls last) (T ++ [t]) -> t <> [] ->
  (forall l, In l (lines_of hs last') -> ~ In 10 l /\ ~ In 13 l) ->
  (forall l, In l (firstn (length (T ++ [t])) (lines_of hs last')) -> line l) ->
  (check_file_header (ended e' hs last') (lines_rstrip (universal (ended e ls last))) = true <->
   exists first rest, lines_of hs last' = first ++ rest /\ Forall2 trims first (T ++ [t])).
Proof. exact c59_header. Qed.
Print Assumptions C59_header.

(** A template of two lines or more that ends in a blank line is satisfied by no such file. *)
Theorem C59_blank : forall e ls last T e' hs last', eol e -> eol e' ->
  (forall l, In l (lines_of ls last) -> line l) -> Forall2 trims (lines_of ls last) (T ++ [[]]) -> T <> [] ->
  (forall l, In l (lines_of hs last') -> ~ In 10 l /\ ~ In 13 l) ->
  (forall l, In l (firstn (length T) (lines_of hs last')) -> line l) ->
  check_file_header (ended e' hs last') (lines_rstrip (universal (ended e ls last))) = false.
Proof. exact c59_blank. Qed.
Print Assumptions C59_blank.

(** So the plain claim -- accepted if the first lines agree with the template -- is false: the
    template "a", blank line, is not satisfied by a copy of itself. *)
Theorem C59_blank_refuted : exists ls hs : list text,
  (forall l, In l (ls ++ hs) -> line l) /\ lines_of hs [] = ls ++ [[98]] /\
  check_file_header (ended [10] hs []) (lines_rstrip (universal (ended [10] ls []))) = false.
Proof. exact c59_blank_refuted. Qed.
Print Assumptions C59_blank_refuted.

(** A template without text, or of one blank line, is satisfied by every file. *)
Theorem C59_nothing : forall e ls last T content, eol e -> (forall l, In l (lines_of ls last) -> line l) -> Forall2 trims (lines_of ls last) T -> T = [] \/ T = [[]] ->
  check_file_header content (lines_rstrip (universal (ended e ls last))) = true.
Proof. exact c59_nothing. Qed.
Print Assumptions C59_nothing.

(** What follows the first lines of the file is irrelevant, for every template (the file can
    hold any characters). *)
Theorem C59_rest : forall e ls last T t e' hs b b', eol e -> eol e' ->
  (forall l, In l (lines_of ls last) -> line l) -> Forall2 trims (lines_of ls last) (T ++ [t]) ->
  (forall l, In l hs -> ~ In 10 l /\ ~ In 13 l) -> length hs = length (T ++ [t]) -> (e' = [13] -> hd 0 b <> 10 /\ hd 0 b' <> 10) ->
  check_file_header (ended e' hs b) (lines_rstrip (universal (ended e ls last))) =
  check_file_header (ended e' hs b') (lines_rstrip (universal (ended e ls last))).
Proof. exact c59_rest. Qed.
Print Assumptions C59_rest.

(** The checker reads lines and splits them again in another way: a file of one line, with a
    form feed in it, satisfies a template of two lines, and a file that
    begins with the text of its template, form feed included, is rejected. *)
Theorem C59_boundary_refuted :
  (exists content tpl : text, ~ In 10 content /\ In 10 tpl /\ check_file_header content (lines_rstrip (universal tpl)) = true) /\
  (exists content tpl r : text, content = tpl ++ 10 :: r /\ last tpl 0 = 99 /\ check_file_header content (lines_rstrip (universal tpl)) = false).
Proof. exact c59_boundary_refuted. Qed.
Print Assumptions C59_boundary_refuted.

(** The command, when everything can be read and every file named ends in ".py": exit code 0 if
    and only if every file has the header, 1 otherwise, and the files reported, each once, are
    the ones without it. *)
Theorem C59_command : forall read sources template t,
  read template = Ok t -> (forall s, In s sources -> named s /\ forall p, In p (files_of s) -> exists u, read p = Ok u) ->
  exists code wrong, check read sources template = Ok (code, wrong) /\ NoDup wrong /\
    (forall p, In p wrong <-> In p (flat_map files_of sources) /\ exists u, read p = Ok u /\ check_file_header u (lines_rstrip (universal t)) = false) /\
    (code = 0 /\ wrong = [] \/ code = 1 /\ wrong <> []).
Proof. exact c59_command. Qed.
Print Assumptions C59_command.

(** The first thing that goes wrong decides: a file with another ending raises ValueError,
    whatever the files before it; a file (or the template) that cannot be opened gives exit
    code 1 without a report, and any other exception of reading is passed on. *)
Theorem C59_command_errors : forall read sources template,
  (read template = Raise OSError -> check read sources template = Ok (1, [])) /\
  (forall t before s after, read template = Ok t -> sources = before ++ s :: after ->
     (forall s, In s before -> named s /\ forall p, In p (files_of s) -> exists u, read p = Ok u) ->
     (~ named s -> check read sources template = Raise ValueError) /\
     (forall ps p qs e, named s -> files_of s = ps ++ p :: qs -> (forall q, In q ps -> exists u, read q = Ok u) -> read p = Raise e ->
        check read sources template = if match e with OSError => true | _ => false end then Ok (1, []) else Raise e)).
Proof. exact c59_command_errors. Qed.
Print Assumptions C59_command_errors.

(** The template "# a", "# b" with a trailing blank in a file using CR LF: accepted; with the
    second line changed: rejected. *)
Example EX_C59 :
  check_file_header (ended [13; 10] [[35; 32; 97; 32]; [35; 32; 98]; [99]] [100]) (lines_rstrip (universal (ended [10] [[35; 32; 97]] [35; 32; 98; 9]))) = true /\
  Forall2 trims (lines_of [[35; 32; 97]] [35; 32; 98; 9]) ([[35; 32; 97]] ++ [[35; 32; 98]]) /\
  check_file_header (ended [13; 10] [[35; 32; 97; 32]; [35; 32; 99]; [99]] [100]) (lines_rstrip (universal (ended [10] [[35; 32; 97]] [35; 32; 98; 9]))) = false.
Proof. exact ex_c59. Qed.

Example EX_C59_command : check ex_read [Directory [1; 2]%nat; File 2 "x.py"] 0 = Ok (1, [2%nat]) /\ check ex_read [Directory [1%nat]] 0 = Ok (0, []) /\
  check ex_read [Directory [1%nat]; File 2 ".py"; File 3 "y.py"] 0 = Raise ValueError /\ check ex_read [File 3 "y.py"; File 2 "x.txt"] 0 = Ok (1, []) /\ check ex_read [Directory []] 0 = Ok (0, []).
Proof. exact ex_c59_command. Qed.
