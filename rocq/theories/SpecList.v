(** Vocabulary of the list and block quote properties. *)
From Coq Require Import String.
From Verif Require Import Py Detectors Formatters SpecLines SpecParser.

(** A list marker: a bullet, or a number and a full stop. *)
Definition marker (m : str) : Prop :=
  (exists b, m = [b] /\ In b [c_star; c_plus; c_dash])
  \/ exists ds, m = ds ++ [c_dot] /\ digits ds.

(** The line is indented by [ws] and carries the marker [m], which ends the line or has a
    space after it. *)
Definition marked (l ws m rest : str) : Prop :=
  l = ws ++ m ++ rest /\ spaces ws /\ marker m /\ (rest = [] \/ exists r, rest = c_sp :: r).

(** Which fence is open after some lines. A fence is closed by the next line that starts
    with the same run of backticks or tildes. *)
Inductive fence_open : list str -> option str -> Prop :=
| fence_none : fence_open [] None
| fence_same ls l f :
    fence_open ls f -> (forall run, ~ opens l run) -> fence_open (ls ++ [l]) f
| fence_opens ls l run :
    fence_open ls None -> opens l run -> fence_open (ls ++ [l]) (Some run)
| fence_closes ls l run :
    fence_open ls (Some run) -> opens l run -> fence_open (ls ++ [l]) None
| fence_inside ls l run run' :
    fence_open ls (Some run) -> opens l run' -> run' <> run ->
    fence_open (ls ++ [l]) (Some run).
Definition inside_fence (ls : list str) : Prop := exists run, fence_open ls (Some run).

(** Fences start in the first column. *)
Definition fences_unindented (ls : list str) : Prop :=
  forall l run, In l ls -> opens l run -> exists info, l = run ++ info.

(** The entries of a list are its lines in order, every entry starting with a marker. *)
Definition partition_of (lines : list str) (entries : list (list str)) : Prop :=
  concat entries = lines
  /\ Forall (fun e => exists l rest ws m body, e = l :: rest /\ marked l ws m body) entries.

(** No entry starts inside a fence; of the other lines with a marker those start an entry
    that are not indented beyond the marker of the entry before. *)
Definition entries_start_right (entries : list (list str)) : Prop :=
  forall before l rest after ws m body,
    entries = before ++ (l :: rest) :: after -> marked l ws m body ->
    ~ inside_fence (concat before)
    /\ (forall before' l' rest' ws' m' body', before = before' ++ [l' :: rest'] ->
          marked l' ws' m' body' -> length ws <= length (ws' ++ m'))
    /\ (forall r1 x r2 ws' m' body', rest = r1 ++ x :: r2 -> marked x ws' m' body' ->
          length ws' <= length (ws ++ m) -> inside_fence (concat before ++ l :: r1)).

(** An entry without its marker and indentation: its first line loses everything up to the
    marker and one more character, each other line loses leading whitespace, as much as
    there is but not more than that. *)
Definition outdented (n : nat) (l l' : str) : Prop :=
  exists ws, l = ws ++ l' /\ spaces ws /\ length ws <= n
    /\ (length ws = n \/ forall c r, l' = c :: r -> is_space c = false).
Definition dedented (entry inner : list str) : Prop :=
  exists l rest ws m body rest',
    entry = l :: rest /\ marked l ws m body
    /\ inner = tl body :: rest' /\ Forall2 (outdented (length (ws ++ m) + 1)) rest rest'.

(** The usual way to write a number. *)
Definition decimal (n : N) (ds : str) : Prop :=
  digits ds /\ digits_val ds = n /\ forall ds', ds = 48%N :: ds' -> ds' = [].

(** [out] is [text] without the newlines at its end, the prefix and a space before its
    first line and [n] spaces before every other line. *)
Definition listed (prefix : str) (n : nat) (text out : str) : Prop :=
  exists first rest k,
    text = str_join [c_nl] (first :: rest) ++ repeat c_nl k
    /\ (rest <> [] -> last rest [] <> [])
    /\ Forall (Forall (fun c => c <> c_nl)) (first :: rest)
    /\ out = str_join [c_nl] ((prefix ++ [c_sp] ++ first) :: map (fun l => repeat c_sp n ++ l) rest).

(** The entries [entries] of the list [lines], as they are, without their markers, as
    nested text formatted to a width smaller by [n], and as they appear in the output
    after their prefixes. *)
Definition list_layout (lim : nat) (w : width) (lines : list str) (n : nat)
    (prefixes : list str) (r : str) : Prop :=
  exists entries inners texts outs,
    partition_of lines entries
    /\ (fences_unindented lines -> entries_start_right entries)
    /\ Forall2 dedented entries inners
    /\ Forall2 (fun inner text => reformat_pass lim (str_join [c_nl] inner ++ [c_nl])
                                    (width_sub w (Z.of_nat n)) = Ok text) inners texts
    /\ Forall2 (fun '(prefix, text) out => listed prefix n text out) (combine prefixes texts) outs
    /\ length prefixes = length entries
    /\ r = str_join [c_nl] outs.
