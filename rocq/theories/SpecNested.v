(** Documents with lists and block quotes nested to any depth. *)
From Coq Require Import String.
From Verif Require Import Py Detectors Formatters SpecLines SpecParser SpecFormat SpecTable SpecWrap
  SpecDefinition SpecList SpecQuote SpecErrors SpecDocument SpecContent.

(** * Headings *)

(** A heading whose text is not empty. *)
Definition titled (l : str) : Prop :=
  exists ws n body, l = ws ++ repeat c_hash n ++ body /\ spaces ws /\ 1 <= n
    /\ (forall b, body <> c_hash :: b) /\ ~ spaces body.

(** * Block quotes *)

(** The line [l'] after the quote marker [p], indented by at most three; an empty line may
    have a bare marker. *)
Definition quoted (p l' l : str) : Prop :=
  exists k, k <= 3 /\ (l = repeat c_sp k ++ p ++ l' \/ (l' = [] /\ l = repeat c_sp k ++ [c_gt])).

(** The first line that is not blank is not indented. *)
Definition flush (ls : list str) : Prop :=
  exists blanks c t rest, ls = blanks ++ (c :: t) :: rest /\ Forall blank_line blanks
    /\ is_space c = false.

(** The lines [ls] quote the lines [inner]. *)
Definition quoting (p : str) (inner ls : list str) : Prop :=
  In p [lit ">"; lit "> "] /\ flush inner /\ Forall2 (quoted p) inner ls
  /\ (exists t rest, ls = (c_gt :: t) :: rest)
  /\ Forall (fun l => ~ stops_short l) ls.

(** * What documents say *)

Inductive tree : Type :=
| Leaf (p : saying)
| Quote (p : str) (ts : list tree)   (* the marker [>], with or without a space *)
| Bullets (b : char) (entries : list (list tree))
| Numbered (first : N) (entries : list (list tree)).

(** * Lists *)

(** The sections of a list entry. *)
Definition entry_section (s : section) : Prop :=
  In (fst s) [PARAGRAPH; ATX_HEADING; BULLET_LIST; ORDERED_LIST; BLOCK_QUOTE].

(** The lines [ls] are an entry with the marker [m] indented by [ws] and the text [inner].
    The other lines are indented to the text, or less; those that begin with a marker
    themselves are indented beyond the marker of the entry. *)
Definition entry (ws m : str) (inner ls : list str) : Prop :=
  exists l rest rest', inner = l :: rest' /\ ls = (ws ++ m ++ c_sp :: l) :: rest
    /\ spaces ws /\ marker m
    /\ Forall2 (outdented (length (ws ++ m) + 1)) rest rest'
    /\ Forall (fun x => forall ws' m' body, marked x ws' m' body -> length (ws ++ m) < length ws') rest.

(** The lines of a list whose entries have the markers [ms] and say [tss]. None is indented
    beyond the marker of the entry before, the first not beyond [n]. *)
Inductive entries (inner : list tree -> list section -> Prop) :
    nat -> list str -> list (list tree) -> list str -> Prop :=
| entries_end n : entries inner n [] [] []
| entries_next n ws m ts secs ls ms tss rest :
    length ws <= n -> entry ws m (concat (map snd secs)) ls ->
    inner ts secs -> Forall entry_section secs ->
    entries inner (length (ws ++ m)) ms tss rest ->
    entries inner n (m :: ms) (ts :: tss) (ls ++ rest).

(** The entry begins with text or a heading, and no quote is among its sections. *)
Definition plainly (ts : list tree) : Prop :=
  exists p rest, ts = Leaf p :: rest /\ Forall (fun t => forall q ts', t <> Quote q ts') rest.

(** * Documents *)

(** The sections of a document to be formatted to the width [w]. The text of quotes and
    list entries satisfies [inner] at the width that is left for it. *)
Definition nblock (inner : width -> list tree -> list section -> Prop) (w : width)
    (t : tree) (ty : section_type) (ls : list str) : Prop :=
  match ty with
  | BLOCK_QUOTE =>
      exists ts p secs, t = Quote p ts /\ quoting p (concat (map snd secs)) ls
        /\ forall w', narrower w (Z.of_nat (length p)) w' -> inner w' ts secs
  | BULLET_LIST =>
      exists b tss ms, t = Bullets b tss /\ In b [c_star; c_plus; c_dash]
        /\ entries (fun ts secs => forall w', narrower w 2 w' -> inner w' ts secs) 3 ([b] :: ms) tss ls
  | ORDERED_LIST =>
      (* If the numbers of the output differ in length, lines after short ones are indented
         further than the text before them. *)
      exists ds tss ms first last, t = Numbered (digits_val ds) tss /\ digits ds
        /\ decimal (digits_val ds) first
        /\ decimal (digits_val ds + N.of_nat (length ms)) last
        /\ (length first = length last \/ (length last <= length first + 3 /\ Forall plainly tss))
        /\ entries (fun ts secs => forall w', narrower w (Z.of_nat (length last) + 2) w' -> inner w' ts secs)
             3 ((ds ++ [c_dot]) :: ms) tss ls
  | _ =>
      block ty ls /\ (exists p, t = Leaf p /\ content ty ls p)
      /\ (ty = ATX_HEADING -> Forall titled ls) /\ (ty = THEMATIC_BREAK -> wide w)
  end.

(** The section ends where the sections [next] follow it. *)
Definition nends (ty : section_type) (ls : list str) (next : list section) : Prop :=
  match ty with
  | BLOCK_QUOTE =>
      forall ty' ls' next', next = (ty', ls') :: next' ->
      ~ In ty' [PARAGRAPH; SETEXT_HEADING; INDENTED_CODE_BLOCK; LINK_REFERENCE_DEFINITION; BLOCK_QUOTE]
  | BULLET_LIST | ORDERED_LIST =>
      forall ty' ls' next', next = (ty', ls') :: next' -> In ty' [BLANK_LINE; TABLE; THEMATIC_BREAK]
  | _ => ends_before ty ls next
  end.

Inductive doc (inner : width -> list tree -> list section -> Prop) (w : width) :
    list tree -> list section -> Prop :=
| doc_end : doc inner w [] []
| doc_next t ts ty ls next :
    nblock inner w t ty ls -> Forall one_line ls -> nends ty ls next -> doc inner w ts next ->
    doc inner w (t :: ts) ((ty, ls) :: next).

(** Quotes and lists are nested at most [depth] deep. *)
Fixpoint nested (depth : nat) : width -> list tree -> list section -> Prop :=
  match depth with
  | O => doc (fun _ _ _ => False)
  | S depth => doc (nested depth)
  end.
