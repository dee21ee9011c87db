(** The files below a directory: [glob.glob(str(p / "**" / "*.md"), recursive=True)]
    (_argparse.py:125), after Lib/glob.py and Lib/fnmatch.py of Python 3.8.

    A path is a list of components, so that [os.path.split] and [os.path.join] work on the
    last one. Not modelled: symbolic links and the nesting of generators that Python's
    recursion limit bounds. *)
From Coq Require Import String.
From Verif Require Import Py Cli.
Local Open Scope nat_scope.

(** * fnmatch *)

Definition c_qmark : char := 63%N.
Definition c_excl : char := 33%N.

(** The pieces of a pattern: a star, a question mark, a set of characters, any other
    character. *)
Inductive wild :=
| WStar
| WOne
| WSet (negated : bool) (body : str)
| WChar (c : char).

(** The text up to the first closing bracket, and what follows it. *)
Fixpoint until_bracket (s : str) : option (str * str) :=
  match s with
  | [] => None
  | c :: s' =>
      if N.eqb c c_rbr then Some ([], s')
      else match until_bracket s' with Some (a, b) => Some (c :: a, b) | None => None end
  end.

(** Lib/fnmatch.py what is in the brackets; an exclamation mark negates, and a bracket
    directly at the start does not close. *)
Definition bracket_set (s : str) : option (bool * str * str) :=
  let '(negated, s) := match s with
                       | c :: s' => if N.eqb c c_excl then (true, s') else (false, s)
                       | [] => (false, s)
                       end in
  let '(first, s) := match s with
                     | c :: s' => if N.eqb c c_rbr then ([c], s') else ([], s)
                     | [] => ([], s)
                     end in
  match until_bracket s with
  | Some (body, rest) => Some (negated, first ++ body, rest)
  | None => None
  end.

(** Lib/fnmatch.py [translate]; [n] bounds the length of the pattern. *)
Fixpoint translate (n : nat) (pat : str) : list wild :=
  match n, pat with
  | S n', c :: rest =>
      if N.eqb c c_star then WStar :: translate n' rest
      else if N.eqb c c_qmark then WOne :: translate n' rest
      else if N.eqb c c_lbr then
        match bracket_set rest with
        | Some (negated, body, rest') => WSet negated body :: translate n' rest'
        | None => WChar c :: translate n' rest
        end
      else WChar c :: translate n' rest
  | _, _ => []
  end.

(** Whether the character is in the set: single characters and ranges. Simplified: a range
    whose ends are in the wrong order is empty (older versions of Python raise an error). *)
Fixpoint in_set (c : char) (body : str) : bool :=
  match body with
  | [] => false
  | a :: rest =>
      match rest with
      | dash :: b :: rest' =>
          if N.eqb dash c_dash then (N.leb a c && N.leb c b) || in_set c rest'
          else N.eqb c a || in_set c rest
      | _ => N.eqb c a || in_set c rest
      end
  end.

Fixpoint wmatch (ps : list wild) (s : str) : bool :=
  match ps with
  | [] => nilb s
  | WStar :: ps' =>
      (fix star (s : str) : bool :=
         wmatch ps' s || match s with [] => false | _ :: s' => star s' end) s
  | WOne :: ps' => match s with [] => false | _ :: s' => wmatch ps' s' end
  | WSet negated body :: ps' =>
      match s with
      | [] => false
      | c :: s' => (if negated then negb (in_set c body) else in_set c body) && wmatch ps' s'
      end
  | WChar c :: ps' => match s with [] => false | d :: s' => N.eqb c d && wmatch ps' s' end
  end.

(** Lib/fnmatch.py [filter] on POSIX, for one name *)
Definition fnmatch (pat name : str) : bool := wmatch (translate (length pat) pat) name.

(** * glob *)

(** Lib/glob.py [has_magic] *)
Definition has_magic (s : str) : bool :=
  existsb (fun c => N.eqb c c_star || N.eqb c c_qmark || N.eqb c c_lbr) s.

(** Lib/glob.py [_ishidden] *)
Definition is_hidden (s : str) : bool := startswith [c_dot] s.

(** Lib/glob.py [_isrecursive] *)
Definition is_recursive (s : str) : bool := str_eqb s (lit "**").

Section Glob.
  (** The file system, the names in its directories in the order of [os.scandir], and how
      deep its paths are. *)
  Variable fs : fsys.
  Variable names : path -> list str.
  Variable depth : nat.

  (** Lib/glob.py [_iterdir] *)
  Definition iterdir (d : path) (dironly : bool) : list str :=
    if is_dir fs d then filter (fun n => negb dironly || is_dir fs (path_join d n)) (names d) else [].

  (** Lib/glob.py [_rlistdir] *)
  Fixpoint rlistdir (n : nat) (d : path) (dironly : bool) : list path :=
    match n with
    | O => []
    | S n' =>
        flat_map (fun x => if is_hidden x then []
                           else [x] :: map (cons x) (rlistdir n' (path_join d x) dironly))
                 (iterdir d dironly)
    end.

  (** Lib/glob.py [_glob0], [_glob1], [_glob2]: the paths below [d] *)
  Definition glob_in_dir (d : path) (basename : str) (dironly : bool) : list path :=
    if has_magic basename then
      if is_recursive basename then [] :: rlistdir depth d dironly
      else
        let found := iterdir d dironly in
        let found := if is_hidden basename then found else filter (fun x => negb (is_hidden x)) found in
        map (fun x => [x]) (filter (fnmatch basename) found)
    else if exists_ fs (path_join d basename) then [[basename]] else [].

  (** Lib/glob.py [_iglob]; the components of the pattern come last first. *)
  Fixpoint iglob (pattern : list str) (dironly : bool) : list path :=
    match pattern with
    | [] => [[]]
    | basename :: dirname =>
        if negb (existsb has_magic pattern) then
          if exists_ fs (rev pattern) then [rev pattern] else []
        else
          let dirs := if existsb has_magic dirname then iglob dirname true else [rev dirname] in
          flat_map (fun d => map (fun q => d ++ q) (glob_in_dir d basename dironly)) dirs
    end.

  (** _argparse.py:125 *)
  Definition glob_md (p : path) : list path := iglob (rev (p ++ [lit "**"; lit "*.md"])) false.
End Glob.
