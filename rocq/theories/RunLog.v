(** The log records of a run of the command that are shown (__main__.py).

    The effects of a run are those of Cli.v; the definitions here follow the same calls and
    collect the records, with the logging configuration handed on from file to file. *)
From Coq Require Import String.
From Verif Require Import Py Regex Utils TextWrap Lines Detectors Formatters Logging Cli Records Notices.
Local Open Scope nat_scope.

Section RunLog.
  (** Python's [repr] of a string, and the interpreter's recursion limit. *)
  Variable py_repr : str -> str.
  Variable lim : nat.

  (** A call of [_reformat_markdown_text] (reformat_markdown.py:44-73): the records that are
      shown, and the logging configuration after it. *)
  Definition pass_shown (text : str) (w : width) (st : log_state) : list record * log_state :=
    let '(rs, x) := reformat_pass_all py_repr lim (info_const st) text w in
    (filter (shown st) rs, info_after x st).

  (** A call of a method of the logger of __main__.py. *)
  Definition main_shown (st : log_state) (level : Z) (text : str) : list record :=
    filter (shown st) [Rec LMain level text].

  (** __main__.py:238-256 [_write_renders] *)
  Definition write_renders_shown (fs : fsys) (input_path output_path : path) (w : width)
      (st : log_state) : list record :=
    let '(first_name, second_name) := render_names (path_name output_path) in
    let first_path := path_join (path_parent output_path) first_name in
    let second_path := path_join (path_parent output_path) second_name in
    match read_text fs input_path with
    | Err _ => []
    | Ok text =>
        let '(rs, st1) := pass_shown text w st in
        rs ++ match reformat_pass lim text w with
              | Err _ => []
              | Ok first_contents =>
                  main_shown st1 DEBUG (lit "Writing first render to " ++ path_str first_path)
                  ++ match write_text fs first_path first_contents with
                     | Err _ => []
                     | Ok _ =>
                         main_shown st1 DEBUG
                           (lit "Writing second render to " ++ path_str second_path)
                         ++ fst (pass_shown first_contents w st1)
                     end
              end
    end.

  (** __main__.py:280-305: one iteration of the loop of [_reformat_files] *)
  Definition file_shown (a : cli_args) (fs : fsys) (st : log_state)
      (input_path output_path : path) : list record * log_state :=
    match read_text fs input_path with
    | Err _ => ([], st)
    | Ok old_contents =>
        let rs := reformat_markdown_text_all py_repr lim old_contents (line_length a) st in
        let '(x, st1) := reformat_markdown_text_log lim old_contents (line_length a) st in
        (rs ++ match x with
               | Err e =>
                   if is_runtime_error e && (write_renders a && is_inconsistent e)
                   then write_renders_shown fs input_path output_path (line_length a) st1
                   else []
               | Ok _ => []
               end, st1)
    end.

  (** __main__.py:279-305: the loop *)
  Fixpoint files_shown (a : cli_args) (fs : fsys) (st : log_state)
      (pairs : list (path * path)) : list record :=
    match pairs with
    | [] => []
    | (input_path, output_path) :: rest =>
        let '(rs, st1) := file_shown a fs st input_path output_path in
        match reformat_file lim a fs input_path output_path with
        | (_, inr _) => rs
        | (es, inl _) => rs ++ files_shown a (apply_effects fs es) st1 rest
        end
    end.

  (** __main__.py:335-361 [_reformat_stdin], with 259-266 [_print_renders] *)
  Definition stdin_shown (a : cli_args) (stdin : str) (st : log_state) : list record :=
    (if match output_directory a with Some _ => true | None => false end
        || negb (nilb (output_files a))
     then main_shown st WARNING
            (lit "MarkFlow is being run in interactive mode. Results will be written to STDOUT.")
     else [])
    ++ reformat_markdown_text_all py_repr lim stdin (line_length a) st
    ++ let '(x, st1) := reformat_markdown_text_log lim stdin (line_length a) st in
       match x with
       | Err e =>
           if is_runtime_error e && (write_renders a && is_inconsistent e) then
             let '(rs, st2) := pass_shown stdin (line_length a) st1 in
             rs ++ match reformat_pass lim stdin (line_length a) with
                   | Err _ => []
                   | Ok first_contents =>
                       main_shown st2 DEBUG (lit "Writing first render to STDOUT")
                       ++ let '(rs', st3) := pass_shown first_contents (line_length a) st2 in
                          rs' ++ match reformat_pass lim first_contents (line_length a) with
                                 | Err _ => []
                                 | Ok _ => main_shown st3 DEBUG (lit "Writing second render to STDOUT")
                                 end
                   end
           else []
       | Ok _ => []
       end.

  (** formatters/table.py:67-70, the message of the exception *)
  Definition format_exception_text (line expected actual : nat) : str :=
    lit "Line " ++ decn line ++ lit " has unexpected number of columns (expected: "
    ++ decn expected ++ lit ", actual: " ++ decn actual ++ lit ")".

  (** __main__.py:364-385 [main] and [__main__]; the root logger has the level of
      __main__.py:190-204, and [basicConfig] gives the others none. The level of the logger of
      __main__.py is never set, so the configuration after [main] does not matter. *)
  Definition run_shown (fs : fsys) (glob_md : path -> list path) (stdin : option str)
      (r : raw_args) : list record :=
    match parse_args fs glob_md r with
    | Rejected _ => []
    | Accepted a =>
        let st := LogState 0 (log_level (ra_verbose r) (ra_quiet r)) INFO in
        (if nilb (paths a) then
           match stdin with
           | None => []
           | Some input => stdin_shown a (universal_newlines input) st
           end
         else files_shown a fs st (zip2 (paths a) (output_paths a)))
        ++ match snd (main lim fs glob_md stdin r) with
           | Raised e _ =>
               match exn_base e with
               | MarkdownFormatException line expected actual =>
                   main_shown st ERROR (format_exception_text line expected actual)
               | _ => []
               end
           | Exit _ => []
           end
    end.
End RunLog.
