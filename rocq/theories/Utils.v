(** markflow/_utils/_utils.py *)
From Verif Require Import Py.

(** _utils.py:14-15 [get_indent] *)
Definition get_indent (line : str) : nat := length line - length (lstrip line).

(** _utils.py:11 *)
Definition ELLIPSIS : str := [c_dot; c_dot; c_dot].

(** _utils.py:18-26 [truncate_str]; a negative [length] makes ["." * length] empty. *)
Definition truncate_str (s : str) (len : Z) : str :=
  if (Z.of_nat (length s) <=? len)%Z then s
  else if (len <=? Z.of_nat (length ELLIPSIS))%Z then rep c_dot (Z.to_nat len)
  else
    let truncation := Z.max 0 (len - Z.of_nat (length ELLIPSIS)) in
    firstn (Z.to_nat truncation) s ++ ELLIPSIS.
