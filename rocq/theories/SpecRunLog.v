(** Vocabulary of properties C79 and C80: what a run of the command logs. *)
From Coq Require Import String.
From Verif Require Import Py Records Logging SpecRecords.

(** The record that tells of a table row with the wrong number of columns. *)
Definition complains (line expected actual : nat) (r : record) : Prop :=
  exists l e a, number line l /\ number expected e /\ number actual a
    /\ r = Rec LMain ERROR (lit "Line " ++ l ++ lit " has unexpected number of columns (expected: "
             ++ e ++ lit ", actual: " ++ a ++ lit ")").

(** The record that tells that the output options are not used. *)
Definition interactive_warning : record :=
  Rec LMain WARNING
    (lit "MarkFlow is being run in interactive mode. Results will be written to STDOUT.").
