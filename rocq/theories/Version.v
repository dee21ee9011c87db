(** markflow/__main__.py:26-58 [get_version], and the start of a run, which always calls
    it: [parse_args] builds the text of [--version] before looking at its arguments. *)
From Coq Require Import String.
From Verif Require Import Py Regex Cli.

(** What [get_version] looks at. [install_name] is the name of the package's folder. It is
    put into a regular expression as it is; the name of a Python package has no character
    with a special meaning there. *)
Record installation := Installation {
  in_pyproject : option str;        (* text of ../pyproject.toml, if it exists *)
  in_folders : list str;            (* names in the folder above, in [iterdir]'s order *)
  in_install_name : str
}.

Definition literally (s : str) : list ritem := map Is s.

(** [[0-9.]] *)
Definition version_char (c : char) : bool := is_digit c || N.eqb c c_dot.

(** __main__.py:27 [PYPROJECT_VERSION_REGEX_STR] up to the group, and up to the closing
    quote; the [\s*] after it always matches. *)
Definition PYPROJECT_VERSION_PREFIX : list ritem :=
  [Star is_space] ++ literally (lit "version") ++ [Star is_space; Is c_eq; Star is_space; Is c_dquote].
Definition PYPROJECT_VERSION_REGEX : list ritem :=
  PYPROJECT_VERSION_PREFIX ++ Plus version_char ++ [Is c_dquote].

(** __main__.py:28-30 [SITE_PACKAGES_VERSION_REGEX_FORMAT_STR] *)
Definition SITE_PACKAGES_VERSION_REGEX (install_name : str) : list ritem :=
  literally (install_name ++ [c_dash]) ++ Plus version_char ++ literally (lit ".dist-info").

(** [match.group("version")] *)
Definition pyproject_version (line : str) : option str :=
  match rmatch PYPROJECT_VERSION_PREFIX line, rmatch PYPROJECT_VERSION_REGEX line with
  | Some n, Some m => Some (slice line n (m - 1))
  | _, _ => None
  end.
Definition folder_version (install_name folder : str) : option str :=
  match rmatch (SITE_PACKAGES_VERSION_REGEX install_name) folder with
  | Some m => Some (slice folder (length install_name + 1) (m - length (lit ".dist-info")))
  | None => None
  end.

(** The loops: the first match counts. *)
Fixpoint first_some {A} (f : str -> option A) (l : list str) : option A :=
  match l with
  | [] => None
  | x :: l' => match f x with Some v => Some v | None => first_some f l' end
  end.

(** __main__.py:33-58; [None] is a [RuntimeError]. *)
Definition get_version (inst : installation) : option str :=
  match in_pyproject inst with
  | Some text => option_map (fun v => v ++ lit " (development)") (first_some pyproject_version (splitlines text))
  | None => first_some (folder_version (in_install_name inst)) (in_folders inst)
  end.

(** __main__.py:66-129, 364-385: nothing catches the [RuntimeError], so that the process ends
    with status 1. *)
Inductive launched :=
| NoVersion
| Launched (es : list effect) (o : outcome).

Definition launch (inst : installation) (lim : nat) (fs : fsys) (glob_md : path -> list path)
    (stdin : option str) (r : raw_args) : launched :=
  match get_version inst with
  | None => NoVersion
  | Some _ => let '(es, o) := main lim fs glob_md stdin r in Launched es o
  end.

Definition launched_status (l : launched) : Z :=
  match l with NoVersion => 1 | Launched _ o => exit_status o end.
