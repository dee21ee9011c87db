(** A backtracking matcher for the regular expressions markflow uses: sequences of
    one-character classes, greedy stars and greedy bounded repetitions of one-character
    classes. Priorities are those of Python's [re]: the longest repetition is tried
    first. *)
From Verif Require Import Py.

Inductive ritem :=
| One (p : char -> bool)            (* [c] *)
| Star (p : char -> bool)           (* [c]* *)
| Upto (p : char -> bool) (n : nat) (* [c]{0,n} *).

(** Length of the match of [r] at the start of [s], as [re.match] finds it. *)
Fixpoint rmatch (r : list ritem) : str -> option nat :=
  match r with
  | [] => fun _ => Some 0
  | One p :: r' => fun s =>
      match s with
      | c :: s' => if p c then option_map S (rmatch r' s') else None
      | [] => None
      end
  | Star p :: r' =>
      fix star (s : str) : option nat :=
        match s with
        | c :: s' =>
            if p c then
              match star s' with
              | Some n => Some (S n)
              | None => rmatch r' s
              end
            else rmatch r' s
        | [] => rmatch r' []
        end
  | Upto p k :: r' =>
      (fix upto (k : nat) (s : str) : option nat :=
         match k, s with
         | S k', c :: s' =>
             if p c then
               match upto k' s' with
               | Some n => Some (S n)
               | None => rmatch r' s
               end
             else rmatch r' s
         | _, _ => rmatch r' s
         end) k
  end.

Definition Plus (p : char -> bool) : list ritem := [One p; Star p].
Definition Opt (p : char -> bool) : ritem := Upto p 1.
Definition Is (c : char) : ritem := One (N.eqb c).

(** [re.finditer] as the list of [(start, end)] of the non-overlapping matches, left to
    right, given the matcher [m] at one position. All patterns used are non-nullable, so
    empty matches need no treatment. *)
Fixpoint finditer_from (m : str -> option nat) (pos skip : nat) (s : str)
  : list (nat * nat) :=
  match s with
  | [] => []
  | _ :: s' =>
      match skip with
      | S k => finditer_from m (S pos) k s'
      | O =>
          match m s with
          | Some (S n) => (pos, pos + S n) :: finditer_from m (S pos) n s'
          | _ => finditer_from m (S pos) 0 s'
          end
      end
  end.

Definition finditer (r : list ritem) (s : str) : list (nat * nat) :=
  finditer_from (rmatch r) 0 0 s.
