(** Version numbers in pyproject.toml and in the names of folders. *)
From Coq Require Import String.
From Verif Require Import Py SpecLines.

(** Digits and dots, and nothing else. *)
Definition plain_version (v : str) : Prop :=
  v <> [] /\ Forall (fun c => (48 <= c <= 57)%N \/ c = c_dot) v.

(** The line reads [version = "v"], with any white space around the words, and anything
    after the second quote. *)
Definition declares (line v : str) : Prop :=
  exists a b c rest, spaces a /\ spaces b /\ spaces c /\ plain_version v
    /\ line = a ++ lit "version" ++ b ++ [c_eq] ++ c ++ [c_dquote] ++ v ++ [c_dquote] ++ rest.

(** The folder is called [name-v.dist-info], or begins so. *)
Definition ships (name folder v : str) : Prop :=
  exists rest, plain_version v /\ folder = name ++ [c_dash] ++ v ++ lit ".dist-info" ++ rest.

(** The first of the texts of which [P] holds for some [v]. *)
Definition first_with (P : str -> str -> Prop) (texts : list str) (v : str) : Prop :=
  exists before x after, texts = before ++ x :: after /\ P x v
    /\ Forall (fun y => forall v', ~ P y v') before.
