(** markflow/__main__.py and markflow/_argparse.py over a file-system map.

    Not modelled: argparse's tokenising of [argv] and its help output, rich's
    rendering of the messages, text encodings (a file's content is a sequence of code
    points), symbolic and hard links (two paths are the same file only if they are equal),
    and other processes. *)
From Coq Require Import String.
From Verif Require Import Py Regex Utils TextWrap Lines Detectors Formatters Logging.

(** * File system *)

(** A [pathlib.Path] as its components. *)
Definition path := list str.

Fixpoint path_eqb (a b : path) : bool :=
  match a, b with
  | [], [] => true
  | x :: a', y :: b' => str_eqb x y && path_eqb a' b'
  | _, _ => false
  end.

(** [Path.name], [Path.parent], [parent / name] *)
Definition path_name (p : path) : str := last p [].
Definition path_parent (p : path) : path := removelast p.
Definition path_join (p : path) (name : str) : path := p ++ [name].

Inductive node :=
| NFile (content : str) (readable writable : bool)
| NDir (writable : bool).

Definition fsys := path -> option node.

Definition exists_ (fs : fsys) (p : path) : bool :=
  match fs p with Some _ => true | None => false end.
Definition is_dir (fs : fsys) (p : path) : bool :=
  match fs p with Some (NDir _) => true | _ => false end.
Definition is_file (fs : fsys) (p : path) : bool :=
  match fs p with Some (NFile _ _ _) => true | _ => false end.
(** [os.access(p, os.W_OK)] *)
Definition can_write (fs : fsys) (p : path) : bool :=
  match fs p with
  | Some (NFile _ _ w) => w
  | Some (NDir w) => w
  | None => false
  end.

Definition update (fs : fsys) (p : path) (n : node) : fsys :=
  fun q => if path_eqb q p then Some n else fs q.

(** Elementary externally visible effects, in program order. *)
Inductive effect :=
| Truncate (p : path)             (* open(p, "w"): create or empty the file *)
| Append (p : path) (s : str)     (* file.write(s) reaching the file *)
| Out (s : str).                  (* text given to print / rich's console.print *)

Definition apply_effect (fs : fsys) (e : effect) : fsys :=
  match e with
  | Truncate p =>
      match fs p with
      | Some (NFile _ r w) => update fs p (NFile [] r w)
      | Some (NDir _) => fs
      | None => update fs p (NFile [] true true)
      end
  | Append p s =>
      match fs p with
      | Some (NFile c r w) => update fs p (NFile (c ++ s) r w)
      | _ => fs
      end
  | Out _ => fs
  end.
Definition apply_effects (fs : fsys) (es : list effect) : fsys :=
  fold_left apply_effect es fs.

(** Universal newlines: what text-mode reading does to [\r\n] and [\r]. *)
Fixpoint universal_newlines (s : str) : str :=
  match s with
  | [] => []
  | c :: s' =>
      if N.eqb c c_cr then
        match s' with
        | d :: s'' =>
            if N.eqb d c_nl then c_nl :: universal_newlines s''
            else c_nl :: universal_newlines s'
        | [] => [c_nl]
        end
      else c :: universal_newlines s'
  end.

(** [Path.read_text()] *)
Definition read_text (fs : fsys) (p : path) : res str :=
  match fs p with
  | Some (NFile c true _) => Ok (universal_newlines c)
  | _ => Err OSError
  end.

(** [Path.write_text(s)] on POSIX (no newline translation): the effects, or the error of
    [open]. *)
Definition write_text (fs : fsys) (p : path) (s : str) : res (list effect) :=
  match fs p with
  | Some (NFile _ _ true) => Ok [Truncate p; Append p s]
  | Some _ => Err OSError
  | None =>
      match fs (path_parent p) with
      | Some (NDir true) => Ok [Truncate p; Append p s]
      | _ => Err OSError
      end
  end.

(** * Arguments *)

(** What argparse has collected before any validation. *)
Record raw_args := RawArgs {
  ra_line_length : Z;
  ra_paths : list path;
  ra_check : bool;
  ra_verbose : nat;
  ra_quiet : nat;
  ra_developer_help : bool;
  ra_output_directory : option path;
  ra_output_files : list path;
  ra_write_renders : bool
}.

Record cli_args := CliArgs {
  line_length : width;
  paths : list path;
  check : bool;
  output_directory : option path;
  output_files : list path;
  write_renders : bool
}.

(** _argparse.py:24-30 [ExistingPath.__call__] *)
Definition existing_path_ok (fs : fsys) (p : path) : bool := exists_ fs p.

(** _argparse.py:38-56 [Directory.__call__] with [permissions=\[WRITABLE\]],
    [must_exist=True] *)
Definition directory_ok (fs : fsys) (p : path) : bool :=
  exists_ fs p && is_dir fs p && can_write fs p.

(** _argparse.py:64-94 [File.__call__] with [permissions=\[WRITABLE\]],
    [must_exist=False] *)
Definition file_ok (fs : fsys) (p : path) : bool :=
  if exists_ fs p then negb (is_dir fs p) && can_write fs p
  else is_dir fs (path_parent p) && can_write fs (path_parent p).

(** _argparse.py:120-127: files stay, anything else is replaced by the [.md] files found
    under it; [glob_md p] is [glob.glob(str(p / "**" / "*.md"), recursive=True)]. *)
Definition expand_paths (fs : fsys) (glob_md : path -> list path) (ps : list path)
  : list path :=
  flat_map (fun p => if is_file fs p then [p] else glob_md p) ps.

(** __main__.py:190-199: the log level selected by [-v] and [-q]. *)
Definition logging_levels : list Z := [DEBUG; INFO; WARNING; ERROR; CRITICAL].
Definition log_level (verbose quiet : nat) : Z :=
  let verbosity := (3 - Z.of_nat verbose + Z.of_nat quiet)%Z in
  let verbosity :=
    Z.max 0 (Z.min verbosity (Z.of_nat (length logging_levels) - 1)) in
  nth (Z.to_nat verbosity) logging_levels 0%Z.

(** __main__.py:367-368 *)
Definition effective_line_length (n : Z) : width :=
  if Z.ltb n 1 then WInf else WInt n.

(** Outcome of argument parsing: argparse's own errors exit with status 2,
    [sys.exit(-1)] is status 255 for the parent process. *)
Inductive parsed :=
| Accepted (a : cli_args)
| Rejected (status : Z).

(** __main__.py:66-235 [parse_args] (validation part). *)
Definition parse_args (fs : fsys) (glob_md : path -> list path) (r : raw_args) : parsed :=
  if negb (forallb (existing_path_ok fs) (ra_paths r)) then Rejected 2
  else if match ra_output_directory r with
          | Some d => negb (directory_ok fs d) || negb (nilb (ra_output_files r))
          | None => false
          end then Rejected 2
  else if negb (forallb (file_ok fs) (ra_output_files r)) then Rejected 2
  else if ra_developer_help r then Rejected 255
  else
    let ps := expand_paths fs glob_md (ra_paths r) in
    if negb (nilb (ra_output_files r))
       && negb (length ps =? length (ra_output_files r)) then Rejected 255
    else if nilb (ra_output_files r)
            && match ra_output_directory r with None => true | Some _ => false end
            && negb (ra_check r)
            && negb (forallb (file_ok fs) ps) then Rejected 255
    else Accepted (CliArgs (effective_line_length (ra_line_length r)) ps (ra_check r)
                     (ra_output_directory r) (ra_output_files r) (ra_write_renders r)).

(** * Running *)

(** How a run ends: an exit status, or an uncaught exception together with the file name
    added to its message, if any. *)
Inductive outcome :=
| Exit (status : Z)
| Raised (e : exn) (file : option path).

(** [except RuntimeError]: [RecursionError] and [ReformatInconsistentException] are
    subclasses of [RuntimeError]. *)
Definition is_runtime_error (e : exn) : bool :=
  match exn_base e with
  | RuntimeError _ | RecursionError | ReformatInconsistentException => true
  | _ => false
  end.
Definition is_inconsistent (e : exn) : bool :=
  match exn_base e with ReformatInconsistentException => true | _ => false end.

Section Run.
  (** The interpreter's recursion limit (in nested calls, see Formatters.v). *)
  Variable lim : nat.

  (** __main__.py:241-246 *)
  Definition render_names (name : str) : str * str :=
    if endswith (lit ".md") name then
      let stem := firstn (length name - 3) name in
      (stem ++ lit ".1.md", stem ++ lit ".2.md")
    else (name ++ lit ".1", name ++ lit ".2").

  (** __main__.py:238-256 [_write_renders]: effects, and the exception if one is raised. *)
  Definition do_write_renders (fs : fsys) (input_path output_path : path) (w : width)
    : list effect * option exn :=
    let '(first_name, second_name) := render_names (path_name output_path) in
    let first_path := path_join (path_parent output_path) first_name in
    let second_path := path_join (path_parent output_path) second_name in
    match (text <- read_text fs input_path ;;
           first_contents <- reformat_pass lim text w ;;
           es <- write_text fs first_path first_contents ;;
           Ok (first_contents, es)) with
    | Err e => ([], Some e)
    | Ok (first_contents, es1) =>
        match (second_contents <- reformat_pass lim first_contents w ;;
               write_text (apply_effects fs es1) second_path second_contents) with
        | Err e => (es1, Some e)
        | Ok es2 => (es1 ++ es2, None)
        end
    end.

  (** The message prefixes printed per file, __main__.py:299,301. *)
  Definition path_str (p : path) : str := str_join [c_slash] p.
  Definition reformatted_message (p : path) : str :=
    lit "**reformatted " ++ path_str p ++ lit "**".
  Definition would_reformat_message (p : path) : str :=
    lit "would reformat " ++ path_str p.

  (** __main__.py:280-305: one iteration of the loop of [_reformat_files]. Returns the
      effects and either whether the file changed or the exception raised. *)
  Definition reformat_file (a : cli_args) (fs : fsys) (input_path output_path : path)
    : list effect * (bool + exn * option path) :=
    match read_text fs input_path with
    | Err e => ([], inr (e, None))
    | Ok old_contents =>
        match reformat_markdown_text lim old_contents (line_length a) with
        | Err e =>
            if is_runtime_error e then
              if write_renders a && is_inconsistent e then
                match do_write_renders fs input_path output_path (line_length a) with
                | (es, Some e') => (es, inr (e', None))
                | (es, None) => (es, inr (e, Some input_path))
                end
              else ([], inr (e, Some input_path))
            else ([], inr (e, None))
        | Ok new_contents =>
            if negb (str_eqb new_contents old_contents) then
              if negb (check a) then
                match write_text fs output_path new_contents with
                | Err e => ([], inr (e, None))
                | Ok es => (es ++ [Out (reformatted_message input_path)], inl true)
                end
              else ([Out (would_reformat_message input_path)], inl true)
            else if negb (path_eqb output_path input_path) then
              match write_text fs output_path new_contents with
              | Err e => ([], inr (e, None))
              | Ok es => (es, inl false)
              end
            else ([], inl false)
        end
    end.

  (** __main__.py:279-305: the loop; returns the effects and either (files changed,
      files unchanged) or the exception. *)
  Fixpoint files_loop (a : cli_args) (fs : fsys) (pairs : list (path * path))
    : list effect * ((nat * nat) + exn * option path) :=
    match pairs with
    | [] => ([], inl (0, 0))
    | (input_path, output_path) :: rest =>
        match reformat_file a fs input_path output_path with
        | (es, inr err) => (es, inr err)
        | (es, inl changed) =>
            let '(es', r) := files_loop a (apply_effects fs es) rest in
            (es ++ es',
             match r with
             | inr err => inr err
             | inl (n, m) => inl (if changed then (S n, m) else (n, S m))
             end)
        end
    end.

  (** __main__.py:270-275 *)
  Definition output_paths (a : cli_args) : list path :=
    match output_directory a with
    | Some d => map (fun p => path_join d (path_name p)) (paths a)
    | None => if nilb (output_files a) then paths a else output_files a
    end.

  (** __main__.py:308-331: the summary. *)
  Definition file_word (n : nat) : str := if n =? 1 then lit "file" else lit "files".
  Definition file_verb (n : nat) : str := if n =? 1 then lit "was" else lit "were".
  Definition summary (a : cli_args) (changed unchanged : nat) : str :=
    let num n := dec (N.of_nat n) in
    str_join [c_sp]
      (if check a then
         (if changed =? 0 then []
          else [lit "**" ++ num changed ++ lit " " ++ file_word changed
                ++ lit " would be reformatted.**"])
         ++ (if unchanged =? 0 then []
             else [num unchanged ++ lit " " ++ file_word unchanged
                   ++ lit " would be left unchanged."])
       else
         (if changed =? 0 then []
          else [lit "**" ++ num changed ++ lit " " ++ file_word changed ++ lit " "
                ++ file_verb changed ++ lit " reformatted.**"])
         ++ (if unchanged =? 0 then []
             else [num unchanged ++ lit " " ++ file_word unchanged ++ lit " "
                   ++ file_verb unchanged ++ lit " left unchanged."])).

  (** __main__.py:269-332 [_reformat_files] *)
  Definition reformat_files (a : cli_args) (fs : fsys) : list effect * outcome :=
    match files_loop a fs (zip2 (paths a) (output_paths a)) with
    | (es, inr (e, f)) => (es, Raised e f)
    | (es, inl (changed, unchanged)) =>
        (es ++ [Out (lit "All done!"); Out (summary a changed unchanged)],
         Exit (if check a && negb (changed =? 0) then 1 else 0))
    end.

  (** __main__.py:335-361 [_reformat_stdin], with 259-266 [_print_renders]. [stdin] is
      the text after newline translation. *)
  Definition reformat_stdin (a : cli_args) (stdin : str) : list effect * outcome :=
    match reformat_markdown_text lim stdin (line_length a) with
    | Err e =>
        if is_runtime_error e && (write_renders a && is_inconsistent e) then
          match reformat_pass lim stdin (line_length a) with
          | Err e' => ([], Raised e' None)
          | Ok first_contents =>
              match reformat_pass lim first_contents (line_length a) with
              | Err e' => ([Out (first_contents ++ [c_nl])], Raised e' None)
              | Ok second_contents =>
                  ([Out (first_contents ++ [c_nl]); Out (second_contents ++ [c_nl])],
                   Raised e None)
              end
          end
        else ([], Raised e None)
    | Ok new_contents =>
        if check a then
          if negb (str_eqb new_contents stdin)
          then ([Out (lit "STDIN would be reformatted.")], Exit 1)
          else ([Out (lit "STDIN would be unchanged.")], Exit 0)
        else ([Out new_contents], Exit 0)
    end.

  (** __main__.py:364-377 [main]; [stdin = None] is a terminal. [sys.stdin] is open in text
      mode, so that line endings are translated when it is read. *)
  Definition main (fs : fsys) (glob_md : path -> list path) (stdin : option str)
      (r : raw_args) : list effect * outcome :=
    match parse_args fs glob_md r with
    | Rejected status => ([], Exit status)
    | Accepted a =>
        if nilb (paths a) then
          match stdin with
          | None => ([Out (lit "**No path provided. Nothing to do.**")], Exit 0)
          | Some input => reformat_stdin a (universal_newlines input)
          end
        else reformat_files a fs
    end.

  (** __main__.py:380-385 [__main__]: the process's exit status. An uncaught exception
      is status 1; [exit(-1)] is 255. *)
  Definition exit_status (o : outcome) : Z :=
    match o with
    | Exit n => n
    | Raised e _ =>
        match exn_base e with MarkdownFormatException _ _ _ => 255 | _ => 1 end
    end.
End Run.
