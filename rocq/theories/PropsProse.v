(** Property C69: words, inline code and links are kept when they are wrapped. *)
From Coq Require Import String.
From Verif Require Import Py Regex Utils TextWrap Base SpecLines SpecParser SpecFormat SpecWrap SpecProse
  SpecDefinition SpecDocument ProofsGaps ProofsProse ProofsWrap PropsWrap ProofsDocument PropsDocument.

(** Prose is wrapped into lines of the same pieces, which fill the lines greedily, and
    wrapping these lines again changes nothing. *)
Theorem C69_prose_wraps : forall text ps w,
  prose true ps (str_join [c_sp] (map strip (splitlines text))) ->
  exists lines,
    wrap text w = Ok (str_join [c_nl] lines) /\ filled w ps lines
    /\ Forall one_line lines
    /\ prose true ps (str_join [c_sp] lines)
    /\ wrap (str_join [c_nl] lines) w = Ok (str_join [c_nl] lines).
Proof.
  intros text ps w H. destruct (prose_wrap _ _ _ w H) as (lines & E & Hf & Ho & _ & _ & _ & _ & Hp & _ & E').
  exists lines. auto 6.
Qed.

(** Which pieces a text is made of is determined. *)
Theorem C69_pieces_unique : forall b b' ps ps' s, prose b ps s -> prose b' ps' s -> ps = ps'.
Proof. exact prose_unique. Qed.

(** No line is broken inside a piece. *)
Theorem C69_pieces_unbroken : forall w ps lines x f,
  filled w ps lines -> In (x, f) ps -> x <> [] -> exists l a b, In l lines /\ l = a ++ x ++ b.
Proof.
  intros w ps lines x f (groups & rest & -> & Hr & -> & _) Hin Hx.
  assert (L : forall g, In (x, f) g -> exists a b, line_of g = a ++ x ++ b).
  { induction g as [|[y f'] g IH] using rev_ind; intros H; [destruct H|]. rewrite line_of_snoc.
    apply in_app_or in H. destruct H as [H|[H|[]]].
    - destruct (IH H) as (a & b & E). rewrite E.
      assert (G : exists b', put (a ++ x ++ b) (y, f') = (a ++ x ++ b) ++ b').
      { destruct (a ++ x ++ b) as [|c t]; [exists y; destruct f'; reflexivity|]. destruct f'; eexists; reflexivity. }
      destruct G as (b' & ->). exists a, (b ++ b'). rewrite <- !app_assoc. reflexivity.
    - injection H as -> ->. destruct (line_of g) as [|c t]; [exists [], []; rewrite app_nil_r; destruct f; reflexivity|].
      destruct f; cbn [put].
      + exists ((c :: t) ++ [c_sp]), []. rewrite app_nil_r, <- !app_assoc. reflexivity.
      + exists (c :: t), []. rewrite app_nil_r. reflexivity. }
  apply in_app_or in Hin. destruct Hin as [Hin|Hin].
  - apply in_concat in Hin. destruct Hin as (g & Hg & Hin). destruct (L g Hin) as (a & b & E).
    exists (line_of g), a, b. split; [apply in_map, Hg|exact E].
  - destruct (L rest Hin) as (a & b & E). rewrite Hr in E. exfalso. destruct a; [|discriminate]. destruct x; [congruence|discriminate].
Qed.

(** The hypothesis holds of text of several lines, with code and a link, which is broken in
    two places. *)
Example C69_nonvacuous :
  let text := str_join [c_nl] ex_prose in
  prose true ex_pieces (str_join [c_sp] (map strip (splitlines text)))
  /\ wrap text (WInt 10) = Ok (str_join [c_nl] [lit "some"; lit "`a  b` and"; lit "[the"; lit "link]("; lit "/url), so"]).
Proof. split; [exact ex_text_pieces|vm_compute; reflexivity]. Qed.
