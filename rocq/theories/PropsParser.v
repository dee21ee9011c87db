(** Properties C07, C08, C10-C14: the parser. *)
From Coq Require Import String.
From Verif Require Import Py Regex Utils Lines Detectors Base SpecLines SpecParser
  ProofsLines ProofsRegex ProofsParser ProofsShapes ProofsKinds.

(** * C07 *)

Theorem C07_lossless : forall lim lines secs,
  parse_markdown lim lines = Ok secs ->
  concat (map snd secs) = lines /\ Forall (fun s => snd s <> []) secs.
Proof. exact parse_markdown_lossless. Qed.

(** * C08 *)

(** The only exceptions the parser can raise are a [StopIteration] and exceeding the
    recursion limit; in particular every line is given a section type, no list is indexed
    out of range and no loop bound of the model is reached. *)
Theorem C08_parser_errors : forall lim lines e,
  parse_markdown lim lines = Err e ->
  exn_base e = StopIteration \/ exn_base e = RecursionError.
Proof. exact parse_markdown_err. Qed.

Theorem C08_every_line_has_a_type : forall lim lines e,
  parse_markdown lim lines = Err e -> exn_base e <> RuntimeError UnknownSection.
Proof.
  intros lim lines e H. apply C08_parser_errors in H. destruct H as [-> | ->]; discriminate.
Qed.

Example C07_nonvacuous :
  parse_markdown 9 [lit "# a"; lit "> b"; lit "c"; []; lit "* d"; lit "  e"]
  = Ok [(ATX_HEADING, [lit "# a"]); (BLOCK_QUOTE, [lit "> b"; lit "c"]);
        (BLANK_LINE, [[]]); (BULLET_LIST, [lit "* d"; lit "  e"])].
Proof. vm_compute. reflexivity. Qed.

(** Both kinds of error do occur. *)
Example C08_nonvacuous_stop :
  parse_markdown 9 [lit "a"; lit "b  "] = Err StopIteration.
Proof. vm_compute. reflexivity. Qed.
Example C08_nonvacuous_recursion :
  exists e, parse_markdown 9 [c_tab :: lit "> x"] = Err e /\ exn_base e = RecursionError.
Proof.
  exists (Redirected (Redirected (Redirected (Redirected RecursionError)))).
  split; vm_compute; reflexivity.
Qed.

(** * C10 *)

Theorem C10_section_shapes : forall lim lines secs ty content,
  parse_markdown lim lines = Ok secs -> In (ty, content) secs -> section_shape ty content.
Proof.
  intros lim lines secs ty content H Hin. apply in_split in Hin.
  destruct Hin as (before & after & ->). apply section_split in H. destruct H as [H Hn].
  eapply splitter_shape; eauto.
Qed.

(** * C12 *)

(** A fenced code block ends at the first line that closes its fence, or at the end of the
    document if there is none. *)
Theorem C12_fenced_code_extent : forall lim lines before content after,
  parse_markdown lim lines = Ok (before ++ (FENCED_CODE_BLOCK, content) :: after) ->
  exists l rest fence, content = l :: rest /\ opens l fence
    /\ ((exists body close, rest = body ++ [close] /\ closes fence close
           /\ Forall (fun x => ~ closes fence x) body)
        \/ (after = [] /\ Forall (fun x => ~ closes fence x) rest)).
Proof.
  intros lim lines before content after H. assert (Hs := H). apply section_split in H.
  destruct H as [H Hn]. cbn [splitter_of] in H. apply fenced_shape in H; [|exact Hn].
  destruct H as (l & rest & fence & -> & Ho & H). exists l, rest, fence.
  split; [auto|]. split; [auto|]. destruct H as [[H Hr]|H]; [right|left; exact H].
  split; [|exact H]. apply parse_markdown_lossless in Hs. destruct Hs as [_ Hs].
  apply Forall_app in Hs. destruct Hs as [_ Hs]. inv Hs.
  destruct after as [|[t c] after]; [reflexivity|]. cbn in Hr.
  apply app_eq_nil in Hr. destruct Hr as [-> _]. inv H3. cbn in *. congruence.
Qed.

(** A line that opens a fence starts a fenced code block, wherever it stands at the start
    of a section (also when it is indented like code). *)
Theorem C12_fence_starts_block : forall lim l rest fence secs,
  opens l fence -> parse_markdown lim (l :: rest) = Ok secs ->
  exists content after, secs = (FENCED_CODE_BLOCK, content) :: after.
Proof.
  intros lim l rest fence secs Ho H.
  assert (Hf : fence_line l) by (eapply opens_fence_line; eauto).
  apply parse_markdown_first in H. destruct H as (ty & content & after & -> & Hr & Hmin).
  exists content, after. f_equal. f_equal.
  assert (Hfen : recognises lim FENCED_CODE_BLOCK (l :: rest)).
  { apply recognises_fenced with (fence := fence). exact Ho. }
  destruct (section_type_eq_dec ty FENCED_CODE_BLOCK) as [->|Hne]; [reflexivity|].
  assert (E : ty = INDENTED_CODE_BLOCK).
  { destruct (recognises_exclusive _ _ _ _ Hne Hr Hfen) as [Hin|Hin]; cbn in Hin;
      intuition congruence. }
  subst ty. exfalso. apply (Hmin FENCED_CODE_BLOCK); [cbn; lia|exact Hfen].
Qed.

Example C12_nonvacuous :
  parse_markdown 9 [lit "~~~~ x"; lit "# a"; lit "~~~"; lit " ~~~~ "; lit "b"; lit ""]
  = Ok [(FENCED_CODE_BLOCK, [lit "~~~~ x"; lit "# a"; lit "~~~"; lit " ~~~~ "]);
        (PARAGRAPH, [lit "b"]); (BLANK_LINE, [lit ""])]
  /\ opens (lit "~~~~ x") (lit "~~~~").
Proof.
  split; [vm_compute; reflexivity|]. exists [], c_tilde, 4, (lit " x").
  split; [reflexivity|]. split; [constructor|]. split; [cbn; auto|]. split; [lia|].
  split; [discriminate|reflexivity].
Qed.

(** * C11 *)

Theorem C11_mutually_exclusive_refuted :
  exists lines a b, a <> b /\ recognises 9 a lines /\ recognises 9 b lines.
Proof.
  exists [lit "* * *"], BULLET_LIST, THEMATIC_BREAK. split; [discriminate|]. split.
  - exists split_bullet_list, [lit "* * *"], [].
    split; [cbn; tauto|]. split; [vm_compute; reflexivity|discriminate].
  - exists split_thematic_break, [lit "* * *"], [].
    split; [cbn; tauto|]. split; [vm_compute; reflexivity|discriminate].
Qed.

(** Two splitters recognise the same lines only for the five pairs of [overlapping]. *)
Theorem C11_mutually_exclusive_partial : forall lim lines a b,
  a <> b -> recognises lim a lines -> recognises lim b lines ->
  In (a, b) overlapping \/ In (b, a) overlapping.
Proof. exact recognises_exclusive. Qed.

(** Each of the five pairs does overlap. *)
Example C11_all_five_pairs : Forall (fun ab => exists lines,
    recognises 9 (fst ab) lines /\ recognises 9 (snd ab) lines) overlapping.
Proof.
  repeat constructor; cbn [fst snd].
  - exists [lit "* * *"]. split.
    + exists split_bullet_list, [lit "* * *"], []. cbn [In SPLITTERS].
      split; [tauto|]. split; [vm_compute; reflexivity|discriminate].
    + exists split_thematic_break, [lit "* * *"], []. cbn [In SPLITTERS].
      split; [tauto|]. split; [vm_compute; reflexivity|discriminate].
  - exists [lit "    ~~~"]. split.
    + exists split_fenced_code_block, [lit "    ~~~"], []. cbn [In SPLITTERS].
      split; [tauto|]. split; [vm_compute; reflexivity|discriminate].
    + exists split_indented_code_block, [lit "    ~~~"], []. cbn [In SPLITTERS].
      split; [tauto|]. split; [vm_compute; reflexivity|discriminate].
  - exists [lit "    | a |"]. split.
    + exists split_indented_code_block, [lit "    | a |"], []. cbn [In SPLITTERS].
      split; [tauto|]. split; [vm_compute; reflexivity|discriminate].
    + exists split_table, [lit "    | a |"], []. cbn [In SPLITTERS].
      split; [tauto|]. split; [vm_compute; reflexivity|discriminate].
  - exists [lit "[a]: /b"; []]. split.
    + exists split_link_reference_definition, [lit "[a]: /b"], [[]]. cbn [In SPLITTERS].
      split; [tauto|]. split; [vm_compute; reflexivity|discriminate].
    + exists (split_paragraph (split_block_quote 9)), [lit "[a]: /b"], [[]].
      cbn [In SPLITTERS].
      split; [tauto|]. split; [vm_compute; reflexivity|discriminate].
  - exists [lit "[a]: /b"; lit "---"]. split.
    + exists split_link_reference_definition, [lit "[a]: /b"], [lit "---"].
      cbn [In SPLITTERS].
      split; [tauto|]. split; [vm_compute; reflexivity|discriminate].
    + exists (split_setext_heading (split_block_quote 9)), [lit "[a]: /b"; lit "---"], [].
      cbn [In SPLITTERS].
      split; [tauto|]. split; [vm_compute; reflexivity|discriminate].
Qed.

(** * C13 *)

(** What follows a section in the document. *)
Definition next_line (after : list section) : option str :=
  hd_error (concat (map snd after)).

Theorem C13_table_maximal : forall lim lines before content after,
  parse_markdown lim lines = Ok (before ++ (TABLE, content) :: after) ->
  Forall table_line content
  /\ (forall l, next_line after = Some l -> ~ table_line l).
Proof.
  intros lim lines before content after H. apply section_split in H.
  destruct H as [H Hn]. cbn [splitter_of] in H. unfold next_line.
  apply split_table_ok in H. destruct content as [|l content]; [congruence|].
  cbn [app] in H. destruct H as [(E & more & Hs & Hr & Hm & Hx)|(_ & Hs & _)]; [|congruence].
  injection Hs as <-. split.
  - constructor; [apply table_started_spec; exact E|]. eapply Forall_impl; [|exact Hm].
    cbn. intros x. apply table_started_spec.
  - intros x Ex. destruct (concat (map snd after)) as [|y r]; [discriminate|].
    injection Ex as <-. apply (not_true_iff _ _ (table_started_spec y)). exact Hx.
Qed.

Theorem C13_list_maximal : forall lim lines before ty content after,
  ty = BULLET_LIST \/ ty = ORDERED_LIST ->
  parse_markdown lim lines = Ok (before ++ (ty, content) :: after) ->
  exists l rest, content = l :: rest
    /\ (ty = BULLET_LIST -> bullet_line l) /\ (ty = ORDERED_LIST -> ordered_line l)
    /\ Forall list_line rest
    /\ (forall x, next_line after = Some x -> ~ list_line x).
Proof.
  intros lim lines before ty content after Hty H. apply section_split in H.
  destruct H as [H Hn]. unfold next_line.
  destruct content as [|l content]; [congruence|]. cbn [app] in H.
  destruct Hty as [-> | ->]; cbn [splitter_of] in H; apply list_shape in H; try exact Hn;
    destruct H as (more & Hs & Hst & Hr & Hm & Hx); injection Hs as <-;
    exists l, content; (split; [reflexivity|]);
    (split; [intros E; try discriminate E; apply bullet_spec; exact Hst|]);
    (split; [intros E; try discriminate E; apply ordered_spec; exact Hst|]);
    (split; [exact Hm|]); intros x Ex;
    (destruct (concat (map snd after)) as [|y r]; [discriminate|]);
    injection Ex as <-; eapply Hx; reflexivity.
Qed.

Example C13_nonvacuous :
  parse_markdown 9 [lit "| a |"; lit "  |-|"; lit "* b"; lit "# c"; lit "> d"; lit "***"]
  = Ok [(TABLE, [lit "| a |"; lit "  |-|"]); (BULLET_LIST, [lit "* b"; lit "# c"; lit "> d"]);
        (THEMATIC_BREAK, [lit "***"])].
Proof. vm_compute. reflexivity. Qed.

(** * C14 *)

Theorem C14_block_quote_lines : forall lim lines secs content,
  parse_markdown lim lines = Ok secs -> In (BLOCK_QUOTE, content) secs ->
  exists l rest, content = l :: rest /\ quote_line l
    /\ Forall (fun x => quote_line x \/ lazy_line x) rest.
Proof. intros lim lines secs content H Hin. exact (C10_section_shapes _ _ _ _ _ H Hin). Qed.

(** A line that starts with a quote marker starts a block quote. *)
Theorem C14_quote_starts_block : forall lim l rest secs,
  quote_line l -> parse_markdown lim (l :: rest) = Ok secs ->
  exists content after, secs = (BLOCK_QUOTE, content) :: after.
Proof.
  intros lim l rest secs Hq H.
  assert (Hs := H). apply parse_markdown_first in H.
  destruct H as (ty & content & after & -> & Hr & Hmin).
  exists content, after. f_equal. f_equal.
  destruct (section_type_eq_dec ty BLOCK_QUOTE) as [->|Hne]; [reflexivity|]. exfalso.
  assert (Hk := recognises_kind _ _ _ _ Hr). clear -Hk Hq Hne.
  eapply quote_kind; eauto.
Qed.

Example C14_nonvacuous :
  parse_markdown 9 [lit "  > a"; lit "b"; lit ">c"; lit "# d"]
  = Ok [(BLOCK_QUOTE, [lit "  > a"; lit "b"; lit ">c"]); (ATX_HEADING, [lit "# d"])].
Proof. vm_compute. reflexivity. Qed.

Example C10_nonvacuous :
  parse_markdown 9 [lit "Title"; lit "more"; lit "==="; lit "    code"; lit "12. x"]
  = Ok [(SETEXT_HEADING, [lit "Title"; lit "more"; lit "==="]);
        (INDENTED_CODE_BLOCK, [lit "    code"]); (ORDERED_LIST, [lit "12. x"])].
Proof. vm_compute. reflexivity. Qed.
