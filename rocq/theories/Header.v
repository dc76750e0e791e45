(** The header checker of the repository, tools/checkheader.py. Texts are lists of code points:
    decoding (and its errors) is left to the reader of a file. *)
From Coq Require Import ZArith List Bool String.
From Verif Require Import Py.
Import ListNotations.
Local Open Scope Z_scope.

Notation text := (list Z).

(** Python's [str.isspace] for one character: what [rstrip()] removes, used at
    tools/checkheader.py:38. *)
Definition isspace (c : Z) : bool :=
  ((9 <=? c) && (c <=? 13)) || ((28 <=? c) && (c <=? 32)) || (c =? 133) || (c =? 160) || (c =? 5760) ||
  ((8192 <=? c) && (c <=? 8202)) || (c =? 8232) || (c =? 8233) || (c =? 8239) || (c =? 8287) || (c =? 12288).
(** The characters at which [str.splitlines] ends a line (tools/checkheader.py:38, 45); the
    pair CR LF counts once. *)
Definition isbreak (c : Z) : bool :=
  ((10 <=? c) && (c <=? 13)) || ((28 <=? c) && (c <=? 30)) || (c =? 133) || (c =? 8232) || (c =? 8233).

(** [str.rstrip()], tools/checkheader.py:38. *)
Fixpoint lstrip (l : text) : text :=
  match l with c :: r => if isspace c then lstrip r else l | [] => [] end.
(** tools/checkheader.py:38. *)
Definition rstrip (l : text) : text := rev (lstrip (rev l)).

(** [str.splitlines()], tools/checkheader.py:38, 45; [cur] is the current line, reversed. *)
Fixpoint split_from (cur : text) (l : text) : list text :=
  match l with
  | [] => match cur with [] => [] | _ => [rev cur] end
  | c :: r =>
      if isbreak c then
        match r with
        | d :: r' => if (c =? 13) && (d =? 10) then rev cur :: split_from [] r' else rev cur :: split_from [] r
        | [] => [rev cur]
        end
      else split_from (c :: cur) r
  end.
(** tools/checkheader.py:38, 45. *)
Definition splitlines (l : text) : list text := split_from [] l.

(** ["\n".join], tools/checkheader.py:38. *)
Fixpoint join (ls : list text) : text :=
  match ls with [] => [] | [l] => l | l :: r => l ++ 10 :: join r end.

(** tools/checkheader.py:37-38. *)
Definition lines_rstrip (t : text) : text := join (map rstrip (splitlines t)).

(** Text mode ([open], [read_text]; tools/checkheader.py:46, 109): CR LF and CR become LF. *)
Fixpoint universal (l : text) : text :=
  match l with
  | [] => []
  | c :: r =>
      if c =? 13 then match r with
                      | d :: r' => if d =? 10 then 10 :: universal r' else 10 :: universal r
                      | [] => [10]
                      end
      else c :: universal r
  end.
(** [fp.readlines()], tools/checkheader.py:47: lines end at LF only, and keep it. *)
Fixpoint read_from (cur : text) (l : text) : list text :=
  match l with
  | [] => match cur with [] => [] | _ => [rev cur] end
  | c :: r => if c =? 10 then rev (c :: cur) :: read_from [] r else read_from (c :: cur) r
  end.
(** tools/checkheader.py:47. *)
Definition readlines (l : text) : list text := read_from [] l.

(** tools/checkheader.py:50. *)
Definition text_eqb (a b : text) : bool := if list_eq_dec Z.eq_dec a b then true else false.

(** tools/checkheader.py:41-52, for the contents of the file. *)
Definition check_file_header (content header_tpl : text) : bool :=
  let lines := length (splitlines header_tpl) in
  let fheader := concat (firstn lines (readlines (universal content))) in
  let fheader := lines_rstrip fheader in
  text_eqb fheader header_tpl.

(** A path as the command line sees it: what [glob("**/*.py")] lists below it if it is a
    directory, its final component if it is not (tools/checkheader.py:112-118). Paths are
    numbers; [read] gives the decoded contents of a file or the exception of opening it. *)
Inductive source : Type :=
| Directory (files : list nat)
| File (path : nat) (name : string).

(** [PurePath.suffix]: from the last dot, unless that is the first or the last character;
    used at tools/checkheader.py:115. *)
Fixpoint after_dot (s : string) (best : option string) : option string :=
  match s with
  | EmptyString => best
  | String c r => after_dot r (if Ascii.eqb c "."%char then Some s else best)
  end.
(** tools/checkheader.py:115. *)
Definition suffix (name : string) : string :=
  match name with
  | EmptyString => EmptyString
  | String _ r => match after_dot r None with
                  | Some s => if String.eqb s "."%string then EmptyString else s
                  | None => EmptyString
                  end
  end.

Section Cli.
Variable read : nat -> res text.

(** [results[fpath] = check_file_header(fpath, header_tpl)], tools/checkheader.py:114, 116.
    The dictionary is kept in order of first insertion, as [OrderedDict] does. *)
Fixpoint put (k : nat) (b : bool) (d : list (nat * bool)) : list (nat * bool) :=
  match d with
  | [] => [(k, b)]
  | (k', b') :: d' => if Nat.eqb k k' then (k, b) :: d' else (k', b') :: put k b d'
  end.
(** tools/checkheader.py:114, 116. *)
Definition check_one (tpl : text) (d : list (nat * bool)) (path : nat) : res (list (nat * bool)) :=
  do content <- read path;
  Ok (put path (check_file_header content tpl) d).
(** tools/checkheader.py:113-114. *)
Fixpoint check_all (tpl : text) (d : list (nat * bool)) (paths : list nat) : res (list (nat * bool)) :=
  match paths with
  | [] => Ok d
  | p :: ps => do d' <- check_one tpl d p; check_all tpl d' ps
  end.
(** tools/checkheader.py:111-118. *)
Fixpoint check_sources (tpl : text) (d : list (nat * bool)) (sources : list source) : res (list (nat * bool)) :=
  match sources with
  | [] => Ok d
  | Directory files :: r => do d' <- check_all tpl d files; check_sources tpl d' r
  | File p name :: r =>
      if String.eqb (suffix name) ".py" then do d' <- check_one tpl d p; check_sources tpl d' r
      else Raise ValueError
  end.

(** [CLI.check], tools/checkheader.py:91-151: the exit code and the paths reported as wrong.
    An [OSError] ends with exit code 1 and no report; other exceptions leave the command. *)
Definition check (sources : list source) (header_template : nat) : res (Z * list nat) :=
  let results :=
    do t <- read header_template;
    check_sources (lines_rstrip (universal t)) [] sources in
  match results with
  | Raise OSError => Ok (1, [])
  | Raise e => Raise e
  | Ok results =>
      let all_headers_ok := forallb snd results in
      let wrong := map fst (filter (fun kb => negb (snd kb)) results) in
      Ok (if all_headers_ok then 0 else 1, wrong)
  end.
End Cli.
