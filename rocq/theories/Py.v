(** Python string primitives used by markflow, exceptions as values, widths.

    A Python [str] is a sequence of Unicode code points: [list N]. *)
From Coq Require Export List NArith ZArith QArith Bool.
From Coq Require Import Ascii String.
From Coq Require Decimal DecimalN.
Export ListNotations.
Close Scope Q_scope.
Open Scope list_scope.
Open Scope nat_scope.

Notation char := N (only parsing).
Notation str := (list N) (only parsing).

(** ASCII text as a model string; used for literals. *)
Definition lit (s : string) : str := map N_of_ascii (list_ascii_of_string s).

(** Code points with a name in the model. *)
Notation c_tab := 9%N (only parsing).
Notation c_nl := 10%N (only parsing).
Notation c_cr := 13%N (only parsing).
Notation c_sp := 32%N (only parsing).
Notation c_dquote := 34%N (only parsing).
Notation c_hash := 35%N (only parsing).
Notation c_squote := 39%N (only parsing).
Notation c_lpar := 40%N (only parsing).
Notation c_rpar := 41%N (only parsing).
Notation c_star := 42%N (only parsing).
Notation c_plus := 43%N (only parsing).
Notation c_dash := 45%N (only parsing).
Notation c_dot := 46%N (only parsing).
Notation c_slash := 47%N (only parsing).
Notation c_colon := 58%N (only parsing).
Notation c_lt := 60%N (only parsing).
Notation c_eq := 61%N (only parsing).
Notation c_gt := 62%N (only parsing).
Notation c_lbr := 91%N (only parsing).
Notation c_bslash := 92%N (only parsing).
Notation c_rbr := 93%N (only parsing).
Notation c_us := 95%N (only parsing).
Notation c_bt := 96%N (only parsing).
Notation c_b := 98%N (only parsing).
Notation c_r := 114%N (only parsing).
Notation c_bar := 124%N (only parsing).
Notation c_tilde := 126%N (only parsing).

(** CPython [str.isspace] for one code point; also what [\s] matches in a [str]
    pattern and what [strip]/[lstrip]/[rstrip]/[split] without argument use
    (CPython Objects/unicodetype_db.h, _PyUnicode_IsWhitespace). *)
Definition is_space (c : char) : bool :=
  (((9 <=? c) && (c <=? 13)) || ((28 <=? c) && (c <=? 32))
   || (c =? 133) || (c =? 160) || (c =? 5760)
   || ((8192 <=? c) && (c <=? 8202)) || (c =? 8232) || (c =? 8233)
   || (c =? 8239) || (c =? 8287) || (c =? 12288))%N.

(** Code points at which CPython [str.splitlines] breaks
    (_PyUnicode_IsLinebreak). *)
Definition is_linebreak (c : char) : bool :=
  (((10 <=? c) && (c <=? 13)) || ((28 <=? c) && (c <=? 30))
   || (c =? 133) || (c =? 8232) || (c =? 8233))%N.

(** ASCII digit, [\[0-9\]] and [string.digits]. *)
Definition is_digit (c : char) : bool := ((48 <=? c) && (c <=? 57))%N.

Definition ceqb (a b : char) : bool := N.eqb a b.

Fixpoint str_eqb (a b : str) : bool :=
  match a, b with
  | [], [] => true
  | x :: a', y :: b' => N.eqb x y && str_eqb a' b'
  | _, _ => false
  end.

Definition nilb {A} (l : list A) : bool :=
  match l with [] => true | _ => false end.

(** [s.lstrip(chars)] / [s.rstrip(chars)] with the set given as a predicate. *)
Fixpoint lstrip_by (p : char -> bool) (s : str) : str :=
  match s with
  | [] => []
  | c :: s' => if p c then lstrip_by p s' else s
  end.

Fixpoint rstrip_by (p : char -> bool) (s : str) : str :=
  match s with
  | [] => []
  | c :: s' =>
      match rstrip_by p s' with
      | [] => if p c then [] else [c]
      | r => c :: r
      end
  end.

Definition lstrip (s : str) : str := lstrip_by is_space s.
Definition rstrip (s : str) : str := rstrip_by is_space s.
Definition strip (s : str) : str := rstrip (lstrip s).

(** [not s.strip()] *)
Definition blank (s : str) : bool := nilb (strip s).

Fixpoint startswith (p s : str) : bool :=
  match p, s with
  | [], _ => true
  | _, [] => false
  | x :: p', y :: s' => N.eqb x y && startswith p' s'
  end.

Definition endswith (p s : str) : bool := startswith (rev p) (rev s).

(** [p in s] for strings. *)
Fixpoint contains (p s : str) : bool :=
  startswith p s || match s with [] => false | _ :: s' => contains p s' end.

(** [s\[a:b\]] for non-negative indices ([b < a] gives the empty string). *)
Definition slice (s : str) (a b : nat) : str := firstn (b - a) (skipn a s).

(** [s\[1:-1\]], for strings and lists. *)
Definition inner {A} (l : list A) : list A := removelast (tl l).

Definition rep (c : char) (n : nat) : str := repeat c n.

(** [sep.join(parts)] *)
Fixpoint str_join (sep : str) (parts : list str) : str :=
  match parts with
  | [] => []
  | [p] => p
  | p :: ps => p ++ sep ++ str_join sep ps
  end.

(** [s.split(c)] for a one-character separator. Never empty. *)
Fixpoint split_on (c : char) (s : str) : list str :=
  match s with
  | [] => [[]]
  | x :: s' =>
      if N.eqb x c then [] :: split_on c s'
      else match split_on c s' with
           | [] => [[x]]
           | w :: ws => (x :: w) :: ws
           end
  end.

(** [s.split(ab)] for a two-character separator [ab]. Never empty. *)
Fixpoint split_on2 (a b : char) (s : str) : list str :=
  match s with
  | [] => [[]]
  | x :: s' =>
      match s' with
      | y :: s'' =>
          if N.eqb x a && N.eqb y b then [] :: split_on2 a b s''
          else match split_on2 a b s' with
               | [] => [[x]]
               | w :: ws => (x :: w) :: ws
               end
      | [] => [[x]]
      end
  end.

(** [s.split()]: the maximal runs of non-whitespace. *)
Fixpoint words (s : str) : list str :=
  match s with
  | [] => []
  | c :: s' =>
      if is_space c then words s'
      else match s' with
           | [] => [[c]]
           | d :: _ =>
               if is_space d then [c] :: words s'
               else match words s' with
                    | [] => [[c]]
                    | w :: ws => (c :: w) :: ws
                    end
           end
  end.

Fixpoint take_while (p : char -> bool) (s : str) : str :=
  match s with
  | [] => []
  | c :: s' => if p c then c :: take_while p s' else []
  end.

Definition not_space (c : char) : bool := negb (is_space c).

(** [s.split(maxsplit=1)]: first word, then the rest with leading (not trailing)
    whitespace removed, if there is any. *)
Definition split_max1 (s : str) : list str :=
  let s1 := lstrip s in
  match s1 with
  | [] => []
  | _ =>
      let w := take_while not_space s1 in
      let r := lstrip (lstrip_by not_space s1) in
      if nilb r then [w] else [w; r]
  end.

(** [s.splitlines()]; [\r\n] counts as one separator. *)
Fixpoint splitlines (s : str) : list str :=
  match s with
  | [] => []
  | c :: s' =>
      if is_linebreak c then
        match s' with
        | d :: s'' =>
            if N.eqb c c_cr && N.eqb d c_nl then [] :: splitlines s''
            else [] :: splitlines s'
        | [] => [[]]
        end
      else match splitlines s' with
           | [] => [[c]]
           | l :: ls => (c :: l) :: ls
           end
  end.

(** [str(n)] for a non-negative integer. *)
Fixpoint uint_str (u : Decimal.uint) : str :=
  match u with
  | Decimal.Nil => []
  | Decimal.D0 u => 48%N :: uint_str u
  | Decimal.D1 u => 49%N :: uint_str u
  | Decimal.D2 u => 50%N :: uint_str u
  | Decimal.D3 u => 51%N :: uint_str u
  | Decimal.D4 u => 52%N :: uint_str u
  | Decimal.D5 u => 53%N :: uint_str u
  | Decimal.D6 u => 54%N :: uint_str u
  | Decimal.D7 u => 55%N :: uint_str u
  | Decimal.D8 u => 56%N :: uint_str u
  | Decimal.D9 u => 57%N :: uint_str u
  end.

Definition dec (n : N) : str := uint_str (N.to_uint n).

(** [int(s)] for a string of ASCII digits. *)
Definition digits_val (s : str) : N :=
  fold_left (fun a c => (a * 10 + (c - 48))%N) s 0%N.

(** Python exceptions that the code can raise. [OutOfFuel] is not a Python exception:
    it marks exhaustion of a loop bound of the model that is proved unreachable. *)
Inductive runtime_kind :=
| UnknownSection      (* parser.py:79 *)
| InvalidWidth        (* formatters/thematic_break.py:42 *)
| NoListMarker        (* formatters/lists.py:53 *)
| InvalidLinkRef      (* formatters/link_reference_definition.py:53,63,73 *)
| Uninitialized       (* formatters/setext_heading.py:41,49 *)
| GeneratorStop.      (* PEP 479: StopIteration raised inside a generator *)

Inductive exn :=
| IndexError
| StopIteration
| ValueError
| RecursionError
| RuntimeError (k : runtime_kind)
| MarkdownFormatException (line expected actual : nat)
| ReformatInconsistentException
| OSError             (* file system errors, only raised by the command line code *)
| Redirected (e : exn)  (* [e], having left a redirect_info_logs_to_debug block *)
| OutOfFuel.

(** The Python exception object, without the model's bookkeeping. *)
Fixpoint exn_base (e : exn) : exn :=
  match e with Redirected e' => exn_base e' | _ => e end.

Inductive res (A : Type) :=
| Ok (a : A)
| Err (e : exn).
Arguments Ok {A} a.
Arguments Err {A} e.

Definition bind {A B} (x : res A) (f : A -> res B) : res B :=
  match x with Ok a => f a | Err e => Err e end.

Notation "x <- e ;; f" := (bind e (fun x => f))
  (at level 61, e at next level, right associativity).
Notation "' pat <- e ;; f" := (bind e (fun x => match x with pat => f end))
  (at level 61, pat pattern, e at next level, right associativity).

(** _utils/_utils.py:29-34 [redirect_info_logs_to_debug]: the context manager has no
    [try]/[finally], so an exception leaving the block skips the line that restores
    [logging.INFO]. The model marks such exceptions; Logging.v gives the state. (A
    [StopIteration] passes through [contextlib] unchanged.) *)
Definition with_redirect {A} (x : res A) : res A :=
  match x with Err e => Err (Redirected e) | _ => x end.

(** Left to right evaluation of a list of computations. *)
Fixpoint mapM {A B} (f : A -> res B) (l : list A) : res (list B) :=
  match l with
  | [] => Ok []
  | a :: l' => b <- f a ;; bs <- mapM f l' ;; Ok (b :: bs)
  end.

(** [typing.Number]: an [int], [math.inf], or a finite [float] (exact rational
    arithmetic; NaN and -inf are not modelled). *)
Inductive width :=
| WInt (z : Z)
| WInf
| WFloat (q : Q).

(** [n <= width] for a length [n]. *)
Definition len_le (n : nat) (w : width) : bool :=
  match w with
  | WInt z => Z.leb (Z.of_nat n) z
  | WInf => true
  | WFloat q => Qle_bool (inject_Z (Z.of_nat n)) q
  end.

(** [width <= 0] *)
Definition width_nonpos (w : width) : bool :=
  match w with
  | WInt z => Z.leb z 0
  | WInf => false
  | WFloat q => Qle_bool q (inject_Z 0)
  end.

(** [width - n] for an [int n]. *)
Definition width_sub (w : width) (n : Z) : width :=
  match w with
  | WInt z => WInt (z - n)
  | WInf => WInf
  | WFloat q => WFloat (Qminus q (inject_Z n))
  end.
