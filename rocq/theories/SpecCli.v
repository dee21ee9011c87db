(** Vocabulary of the command line properties. *)
From Coq Require Import String.
From Verif Require Import Py Formatters Logging Cli.
From Verif Require SpecList.

(** The file [p] can be read, its text is [old] and formatting that text gives [new]. *)
Definition formats_to (lim : nat) (fs : fsys) (w : width) (p : path) (old new : str)
  : Prop :=
  read_text fs p = Ok old /\ reformat_markdown_text lim old w = Ok new.

(** The file at [p] holds exactly [s]. *)
Definition holds (fs : fsys) (p : path) (s : str) : Prop :=
  exists r w, fs p = Some (NFile s r w).

(** An effect that does not touch the file system. *)
Definition is_print (e : effect) : Prop :=
  match e with Out _ => True | _ => False end.

(** The file an effect touches. *)
Definition touches (p : path) (e : effect) : Prop :=
  match e with
  | Truncate q | Append q _ => q = p
  | Out _ => False
  end.

(** States in which a run producing the effects [es] can be interrupted: after a prefix
    of the effects, the last [Append] possibly only partly done. *)
Inductive crash_state (fs : fsys) (es : list effect) : fsys -> Prop :=
| crash_between es1 es2 :
    es = es1 ++ es2 -> crash_state fs es (apply_effects fs es1)
| crash_in_write es1 p s1 s2 es2 :
    es = es1 ++ Append p (s1 ++ s2) :: es2 ->
    crash_state fs es (apply_effects fs (es1 ++ [Append p s1])).

(** In-place run: outputs are the inputs. *)
Definition in_place (a : cli_args) : Prop :=
  output_directory a = None /\ output_files a = [].

(** File systems that only differ in the contents of files. *)
Definition same_node_shape (m n : option node) : Prop :=
  match m, n with
  | None, None => True
  | Some (NFile _ r w), Some (NFile _ r' w') => r = r' /\ w = w'
  | Some (NDir w), Some (NDir w') => w = w'
  | _, _ => False
  end.

(** The files a run works on: a named file stands for itself, anything else for the files
    found under it. *)
Inductive work_list (fs : fsys) (glob_md : path -> list path)
  : list path -> list path -> Prop :=
| work_none : work_list fs glob_md [] []
| work_file p ps files :
    (exists s, holds fs p s) -> work_list fs glob_md ps files ->
    work_list fs glob_md (p :: ps) (p :: files)
| work_directory p ps files :
    (forall s, ~ holds fs p s) -> work_list fs glob_md ps files ->
    work_list fs glob_md (p :: ps) (glob_md p ++ files).

(** A text can be written to [p]: it is a writable file, or does not exist and its
    directory is writable. *)
Definition can_hold_text (fs : fsys) (p : path) : Prop :=
  (exists s r, fs p = Some (NFile s r true))
  \/ (fs p = None /\ fs (removelast p) = Some (NDir true)).

(** The exception that reports that formatting the output changes it. *)
Definition inconsistent (e : exn) : Prop := exn_base e = ReformatInconsistentException.

(** The exceptions that Python calls runtime errors. *)
Definition runtime_error (e : exn) : Prop :=
  (exists k, exn_base e = RuntimeError k) \/ exn_base e = RecursionError \/ inconsistent e.

(** The options of an invocation that works on [files] make sense. *)
Record valid_invocation (fs : fsys) (r : raw_args) (files : list path) : Prop := {
  paths_exist : forall p, In p (ra_paths r) -> fs p <> None;
  one_kind_of_output : ra_output_directory r = None \/ ra_output_files r = [];
  directory_writable :
    forall d, ra_output_directory r = Some d -> fs d = Some (NDir true);
  outputs_writable : forall p, In p (ra_output_files r) -> can_hold_text fs p;
  no_developer_help : ra_developer_help r = false;
  one_output_each : ra_output_files r <> [] -> length (ra_output_files r) = length files;
  inputs_writable :
    ra_output_directory r = None -> ra_output_files r = [] -> ra_check r = false ->
    forall p, In p files -> can_hold_text fs p
}.

(** The same invocation with [--check]. *)
Definition checking (r : raw_args) : raw_args :=
  RawArgs (ra_line_length r) (ra_paths r) true (ra_verbose r) (ra_quiet r)
    (ra_developer_help r) (ra_output_directory r) (ra_output_files r)
    (ra_write_renders r).

(** The same invocation without [--write-renders]. *)
Definition without_renders (r : raw_args) : raw_args :=
  RawArgs (ra_line_length r) (ra_paths r) (ra_check r) (ra_verbose r) (ra_quiet r)
    (ra_developer_help r) (ra_output_directory r) (ra_output_files r) false.

(** All of the files can be read and formatted, and [l] lists, in order, those that formatting
    changes, with their new texts. *)
Inductive changes (lim : nat) (fs : fsys) (w : width)
  : list path -> list (path * str) -> Prop :=
| changes_none : changes lim fs w [] []
| changes_same p ps l text :
    formats_to lim fs w p text text -> changes lim fs w ps l ->
    changes lim fs w (p :: ps) l
| changes_one p ps l old new :
    formats_to lim fs w p old new -> new <> old -> changes lim fs w ps l ->
    changes lim fs w (p :: ps) ((p, new) :: l).

(** A path as printed. *)
Definition printed (p : path) : str := str_join [c_slash] p.

(** Rewriting one file. *)
Definition rewrite_effects (c : path * str) : list effect :=
  [Truncate (fst c); Append (fst c) (snd c); Out (lit "**reformatted " ++ printed (fst c) ++ lit "**")].

(** The sentences about [n] files that are (with --check: would be) [what]: none if there
    is no such file, else "1 file was ..." or "3 files were ...". *)
Definition tells (check : bool) (n : nat) (what : str) (sentences : list str) : Prop :=
  (n = 0 /\ sentences = [])
  \/ n <> 0 /\ exists num subject verb, SpecList.decimal (N.of_nat n) num
       /\ (n = 1 -> subject = lit " file ") /\ (n <> 1 -> subject = lit " files ")
       /\ (check = true -> verb = lit "would be ")
       /\ (check = false -> n = 1 -> verb = lit "was ")
       /\ (check = false -> n <> 1 -> verb = lit "were ")
       /\ sentences = [num ++ subject ++ verb ++ what].

(** * Line endings *)

Definition line_ending (e : str) : Prop := In e [[c_nl]; [c_cr]; [c_cr; c_nl]].

(** The two texts have the same lines; the lines may end differently. A carriage return
    and a newline after it are one ending. *)
Inductive same_lines : str -> str -> Prop :=
| same_lines_end : same_lines [] []
| same_lines_char c s s' :
    c <> c_cr -> c <> c_nl -> same_lines s s' -> same_lines (c :: s) (c :: s')
| same_lines_ending e e' s s' :
    line_ending e -> line_ending e' ->
    (e = [c_cr] -> forall t, s <> c_nl :: t) -> (e' = [c_cr] -> forall t, s' <> c_nl :: t) ->
    same_lines s s' -> same_lines (e ++ s) (e' ++ s').

(** The file systems differ at most in the line endings of files. *)
Definition same_files (fs fs' : fsys) : Prop :=
  forall p, match fs p, fs' p with
            | Some (NFile s r w), Some (NFile s' r' w') => same_lines s s' /\ r = r' /\ w = w'
            | Some (NDir w), Some (NDir w') => w = w'
            | None, None => True
            | _, _ => False
            end.

(** The same of two standard inputs. *)
Definition same_input (i i' : option str) : Prop :=
  match i, i' with
  | Some s, Some s' => same_lines s s'
  | None, None => True
  | _, _ => False
  end.
