(** The text that documents are formatted to, computed from what they say alone. *)
From Coq Require Import String.
From Verif Require Import Py SpecWrap SpecContent SpecNested.

(** * Text *)

(** [fits], decided. *)
Definition fit (w : width) (n : nat) : bool :=
  match w with
  | WInt z => (z <=? 0)%Z || (Z.of_nat n <=? z)%Z
  | WInf => true
  | WFloat q => Qle_bool q 0 || Qle_bool (inject_Z (Z.of_nat n)) q
  end.

(** The lines of the pieces after the line begun with [line]: each piece is put on the line
    if it fits there, and on a new line otherwise. *)
Fixpoint fill (w : width) (line : str) (ps : list piece) : list str :=
  match ps with
  | [] => [line]
  | p :: ps' =>
      if fit w (length (put line p)) then fill w (put line p) ps' else line :: fill w (fst p) ps'
  end.

Definition paragraph (w : width) (ps : list piece) : list str :=
  match ps with [] => [] | p :: ps' => fill w (fst p) ps' end.

(** The length of the longest line. *)
Definition longest (lines : list str) : nat := list_max (map (@length char) lines).

(** * Tables *)

Definition spaces_of (n : nat) : str := repeat c_sp n.
Definition flushed_left (n : nat) (t : str) : str := t ++ spaces_of (n - length t).
Definition flushed_right (n : nat) (t : str) : str := spaces_of (n - length t) ++ t.
Definition in_middle (n : nat) (t : str) : str :=
  let k := n - length t in spaces_of (k / 2) ++ t ++ spaces_of (k - k / 2).

(** A cell of [n] characters between two spaces; [default] is for columns without colons. *)
Definition cell (default : nat -> str -> str) (side : bool * bool) (n : nat) (t : str) : str :=
  c_sp :: match side with
          | (true, true) => in_middle n t
          | (true, false) => flushed_left n t
          | (false, true) => flushed_right n t
          | (false, false) => default n t
          end ++ [c_sp].

Definition ruled (side : bool * bool) (n : nat) : str :=
  (if fst side then c_colon else c_dash) :: repeat c_dash n ++ [if snd side then c_colon else c_dash].

Definition between_bars (cells : list str) : str := c_bar :: str_join [c_bar] cells ++ [c_bar].

(** The length of the longest cell in column [j]. *)
Definition column (rows : list (list str)) (j : nat) : nat := longest (map (fun row => nth j row []) rows).

Definition table_lines (header : list str) (sides : list (bool * bool)) (rows : list (list str))
  : list str :=
  let columns := seq 0 (length header) in
  let side j := nth j sides (false, false) in
  let size := column (header :: rows) in
  let line default row :=
    between_bars (map (fun j => cell default (side j) (size j) (nth j row [])) columns) in
  line in_middle header
  :: between_bars (map (fun j => ruled (side j) (size j)) columns)
  :: map (line flushed_left) rows.

(** * Sections *)

Definition leaf_lines (w : width) (p : saying) : list str :=
  match p with
  | Blank => [[]]
  | Heading level text => [repeat c_hash level ++ [c_sp] ++ text]
  | Rule c => [match w with WInt z => repeat c (Z.to_nat z) | _ => repeat c 3 end]
  | Fenced fence info lines => (fence ++ info) :: lines ++ [fence]
  | Indented lines => lines
  | Table header sides rows => table_lines header sides rows
  | Link label target => [[c_lbr] ++ label ++ [c_rbr; c_colon; c_sp] ++ target]
  | Text ps => paragraph w ps
  | Title c ps => paragraph w ps ++ [repeat c (longest (paragraph w ps))]
  end.

(** * Lists and quotes *)

(** The width that is left beside [n] characters. *)
Definition beside (w : width) (n : nat) : width :=
  match w with
  | WInt z => WInt (z - Z.of_nat n)
  | WInf => WInf
  | WFloat q => WFloat (q - inject_Z (Z.of_nat n))
  end.

(** The marker before the first line, and the other lines indented by [n]. *)
Definition hanging (n : nat) (m : str) (lines : list str) : list str :=
  match lines with
  | [] => []
  | l :: rest => (m ++ [c_sp] ++ l) :: map (fun x => spaces_of n ++ x) rest
  end.

Definition quote_lines (p : str) (lines : list str) : list str :=
  map (fun l => match l with [] => [c_gt] | _ => p ++ l end) lines.

(** The entries with the markers [first.], [first+1.] and so on, all with their text at [n]
    but for the first lines after shorter markers. *)
Fixpoint numbering (n : nat) (first : N) (entries : list (list str)) : list str :=
  match entries with
  | [] => []
  | lines :: rest => hanging n (dec first ++ [c_dot]) lines ++ numbering n (first + 1) rest
  end.

(** The lines of a tree formatted to the width [w]. *)
Fixpoint tree_lines (w : width) (t : tree) : list str :=
  match t with
  | Leaf p => leaf_lines w p
  | Quote p ts => quote_lines p (concat (map (tree_lines (beside w (length p))) ts))
  | Bullets b tss =>
      concat (map (fun ts => hanging 2 [b] (concat (map (tree_lines (beside w 2)) ts))) tss)
  | Numbered first tss =>
      let last := (first + N.of_nat (length tss) - 1)%N in
      let n := length (dec last ++ [c_dot; c_sp]) in
      numbering n first (map (fun ts => concat (map (tree_lines (beside w n)) ts)) tss)
  end.

Definition rendering (w : width) (ts : list tree) : list str := concat (map (tree_lines w) ts).
