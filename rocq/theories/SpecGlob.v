(** Vocabulary of property C81: the Markdown files below a directory. *)
From Coq Require Import String.
From Verif Require Import Py Cli.
Local Open Scope nat_scope.

(** A name that does not begin with a dot. *)
Definition visible (n : str) : Prop := forall r, n <> c_dot :: r.

(** A name without the characters that have a meaning in patterns: star, question mark and
    opening bracket. *)
Definition ordinary (n : str) : Prop := forall c, In c n -> ~ In c [42; 63; 91]%N.

(** [names d] lists the names in each directory [d], each once. *)
Definition lists_names (fs : fsys) (names : path -> list str) : Prop :=
  forall d w, fs d = Some (NDir w) ->
    NoDup (names d) /\ forall n, In n (names d) <-> fs (d ++ [n]) <> None.

(** No path of the file system is longer than [depth]. *)
Definition no_deeper (depth : nat) (fs : fsys) : Prop :=
  forall p, fs p <> None -> length p <= depth.

(** [q] is the directory [d] or one that is reached from it through directories whose names
    do not begin with a dot. *)
Inductive under (fs : fsys) : path -> path -> Prop :=
| under_self d w : fs d = Some (NDir w) -> under fs d d
| under_step d n q w : fs d = Some (NDir w) -> visible n -> under fs (d ++ [n]) q -> under fs d q.

(** [p] is in such a directory, and its name ends in .md and does not begin with a dot. *)
Definition markdown_below (fs : fsys) (d p : path) : Prop :=
  exists q stem, under fs d q /\ visible (stem ++ lit ".md") /\ p = q ++ [stem ++ lit ".md"]
    /\ fs p <> None.
