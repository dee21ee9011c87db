(** C09: parsing and formatting terminate *)
From Coq Require Import String.
From Verif Require Import Py Regex Utils TextWrap Lines Detectors Formatters Base
  SpecLines SpecFormat SpecParser SpecLimit ProofsLines ProofsParser ProofsChars PropsParser
  PropsChars PropsList ProofsLimit ProofsPlain.

(** The recursion limit of the interpreter matters only if it is hit: with a higher limit
    every other result stays as it is. *)
Theorem C09_limit_parse : forall lim lim' lines,
  lim <= lim' -> not_too_deep (parse_markdown lim lines) ->
  parse_markdown lim' lines = parse_markdown lim lines.
Proof. intros lim lim' lines L H. apply approx_nd; [apply approx_parse; exact L|exact H]. Qed.

Theorem C09_limit_reformat : forall lim lim' text w,
  lim <= lim' -> not_too_deep (reformat_markdown_text lim text w) ->
  reformat_markdown_text lim' text w = reformat_markdown_text lim text w.
Proof. intros lim lim' text w L H. apply approx_nd; [apply approx_reformat; exact L|exact H]. Qed.

(** If quote markers come after plain spaces only, the parser needs no more nested calls
    than twice the number of lines and characters. *)
Theorem C09_parser : forall lim lines,
  Forall quotable lines -> 2 * size lines + 2 <= lim -> not_too_deep (parse_markdown lim lines).
Proof. exact nd_parse. Qed.

(** If whitespace in front of a [>] is plain spaces, there is a limit above which one pass
    of the formatter, at any width, is not too deep and does not depend on the limit. *)
Theorem C09_pass : forall text,
  Forall plain_indent (splitlines text) ->
  exists n, forall lim w, n <= lim ->
    not_too_deep (reformat_pass lim text w) /\ reformat_pass lim text w = reformat_pass n text w.
Proof.
  intros text H. destruct (nd_pass (splitlines text)) as (n & Hn).
  { assert (O := splitlines_one_line text). rewrite Forall_forall in *. intros l Hl. split; auto. }
  exists n. intros lim w L. assert (G := Hn text w eq_refl).
  assert (E := approx_nd _ _ (approx_pass n lim text w L) G). split; [rewrite E; exact G|exact E].
Qed.

(** The output of the pass is such a text again. *)
Theorem C09_output : forall lim text w t,
  Forall plain_indent (splitlines text) -> reformat_pass lim text w = Ok t ->
  Forall plain_indent (splitlines t).
Proof. exact plain_indent_pass. Qed.

(** Hence the same for [reformat_markdown_text], which formats its own output once more. *)
Theorem C09_reformat : forall text w,
  Forall plain_indent (splitlines text) ->
  exists n, forall lim, n <= lim ->
    not_too_deep (reformat_markdown_text lim text w)
    /\ reformat_markdown_text lim text w = reformat_markdown_text n text w.
Proof.
  intros text w H1. assert (H2 := fun lim t => C09_output lim text w t H1).
  assert (G : exists n, not_too_deep (reformat_markdown_text n text w)).
  { destruct (C09_pass text H1) as (n & Hn). destruct (Hn n w (le_n n)) as [N _].
    destruct (reformat_pass n text w) as [t|e] eqn:E.
    2:{ exists n. unfold reformat_markdown_text. rewrite E. exact N. }
    destruct (C09_pass t (H2 n t E)) as (m & Hm). exists (n + m). unfold reformat_markdown_text.
    destruct (Hn (n + m) w ltac:(lia)) as [_ En]. rewrite En, E. cbn [bind].
    apply nd_bind; [apply Hm; lia|]. intros t' _. destruct (str_eqb t' t); [apply nd_ok|].
    intros e Ee. injection Ee as <-. discriminate. }
  destruct G as (n & Hn). exists n. intros lim L.
  assert (E := C09_limit_reformat n lim text w L Hn). rewrite E. auto.
Qed.

Lemma plain_space_indent l :
  Forall (fun c => is_space c = true -> c = c_sp \/ is_linebreak c = true) l -> one_line l -> plain_indent l.
Proof.
  intros H Ho a ws b -> Hw. unfold one_line in Ho. rewrite !Forall_app in *.
  destruct H as [_ [H _]], Ho as [_ [Ho _]]. unfold spaces in Hw.
  rewrite Forall_forall in *. intros c Hc. destruct (H c Hc (Hw c Hc)) as [G|G]; [exact G|].
  rewrite (Ho c Hc) in G. discriminate.
Qed.

(** In particular on every text without other whitespace than spaces and line separators. *)
Theorem C09_plain_whitespace : forall text w,
  plain_whitespace text ->
  exists n, forall lim, n <= lim ->
    not_too_deep (reformat_markdown_text lim text w)
    /\ reformat_markdown_text lim text w = reformat_markdown_text n text w.
Proof.
  intros text w H. apply C09_reformat.
  assert (L : Forall (Forall (fun c => is_space c = true -> c = c_sp \/ is_linebreak c = true)) (splitlines text)).
  { apply Forall_splitlines. exact H. }
  assert (O := splitlines_one_line text). rewrite Forall_forall in *. intros l Hin. apply plain_space_indent; auto.
Qed.

(** A tab before the marker is never removed: no limit is enough. *)
Definition too_deep {A} (r : res A) : Prop := exists e, r = Err e /\ exn_base e = RecursionError.

Lemma too_deep_bind {A B} (x : res A) (f : A -> res B) : too_deep x -> too_deep (bind x f).
Proof. intros (e & -> & He). exists e. auto. Qed.

Lemma tab_quote_deep lim :
  too_deep (split_block_quote lim [c_tab :: lit "> x"])
  /\ too_deep (bq_ends_with_paragraph lim [c_tab :: lit "> x"]).
Proof.
  induction lim as [|lim [IH1 IH2]]; [split; exists RecursionError; auto|]. split.
  - cbn [split_block_quote]. cbn [length bq_loop].
    change (negb (is_explicit_block_quote_line (c_tab :: lit "> x"))) with false.
    change (span is_explicit_block_quote_line [c_tab :: lit "> x"]) with ([c_tab :: lit "> x"], @nil str).
    apply too_deep_bind. exact IH2.
  - cbn [bq_ends_with_paragraph]. apply too_deep_bind. cbn [map].
    change (strip_quote_marker (c_tab :: lit "> x")) with (c_tab :: lit "> x").
    unfold parse_with. cbn [length parse_loop]. unfold SPLITTERS. cbn [first_split].
    change (split_atx_heading [c_tab :: lit "> x"]) with (@Ok split_result ([], [c_tab :: lit "> x"])).
    cbn [bind nilb].
    change (split_blank_line [c_tab :: lit "> x"]) with (@Ok split_result ([], [c_tab :: lit "> x"])).
    cbn [bind nilb]. destruct IH1 as (e & -> & He). exists (Redirected e). auto.
Qed.

Theorem C09_tab_quote : forall lim w, too_deep (reformat_markdown_text lim (c_tab :: lit "> x") w).
Proof.
  intros lim w. apply too_deep_bind. destruct lim as [|lim]; [exists RecursionError; auto|].
  cbn [reformat_pass]. apply too_deep_bind.
  change (splitlines (c_tab :: lit "> x")) with [c_tab :: lit "> x"].
  unfold parse_markdown, parse_with. cbn [length parse_loop]. unfold SPLITTERS. cbn [first_split].
  change (split_atx_heading [c_tab :: lit "> x"]) with (@Ok split_result ([], [c_tab :: lit "> x"])).
  cbn [bind nilb].
  change (split_blank_line [c_tab :: lit "> x"]) with (@Ok split_result ([], [c_tab :: lit "> x"])).
  cbn [bind nilb]. destruct (tab_quote_deep lim) as [(e & -> & He) _]. exists e. auto.
Qed.

(** Nor is it enough to look at the [>] where lines begin: this one begins a line after
    wrapping. *)
Definition ex_wrapped : str := lit "foo >" ++ [c_tab] ++ lit "> x".

Lemma wrapped_quote_deep lim : too_deep (parse_markdown (S (S lim)) [lit "foo"; lit ">" ++ [c_tab] ++ lit "> x"]).
Proof.
  set (q := lit ">" ++ [c_tab] ++ lit "> x").
  assert (D : too_deep (split_block_quote (S (S lim)) [q])).
  { cbn [split_block_quote length bq_loop].
    change (negb (is_explicit_block_quote_line q)) with false.
    change (span is_explicit_block_quote_line [q]) with ([q], @nil str).
    apply too_deep_bind. cbn [bq_ends_with_paragraph]. apply too_deep_bind. cbn [app map].
    change (strip_quote_marker q) with (c_tab :: lit "> x").
    unfold parse_with. cbn [length parse_loop]. unfold SPLITTERS. cbn [first_split].
    change (split_atx_heading [c_tab :: lit "> x"]) with (@Ok split_result ([], [c_tab :: lit "> x"])).
    cbn [bind nilb].
    change (split_blank_line [c_tab :: lit "> x"]) with (@Ok split_result ([], [c_tab :: lit "> x"])).
    cbn [bind nilb]. destruct (tab_quote_deep lim) as [(e & -> & He) _]. exists (Redirected e). auto. }
  unfold parse_markdown, parse_with. cbn [length parse_loop]. unfold SPLITTERS.
  assert (N : forall f : splitter, f [lit "foo"; q] = Ok ([], [lit "foo"; q]) -> forall ty fs,
    too_deep (first_split fs [lit "foo"; q]) -> too_deep (first_split ((ty, f) :: fs) [lit "foo"; q])).
  { intros f Hf ty fs Hfs. cbn [first_split]. rewrite Hf. cbn [bind nilb]. exact Hfs. }
  apply too_deep_bind.
  do 8 (apply N; [vm_compute; reflexivity|]).
  cbn [first_split]. apply too_deep_bind. unfold split_paragraph. apply too_deep_bind.
  unfold split_paragraph_ignoring_setext.
  change (is_paragraph_start_line (lit "foo")) with true.
  change (endswith [c_sp; c_sp] (lit "foo")) with false. cbv iota. apply too_deep_bind.
  cbn [par_tail]. apply too_deep_bind. unfold par_continuation. apply too_deep_bind. cbn [any_splits].
  change (split_atx_heading [q]) with (@Ok split_result ([], [q])). cbn [bind nilb].
  change (split_blank_line [q]) with (@Ok split_result ([], [q])). cbn [bind nilb].
  apply too_deep_bind. exact D.
Qed.

Theorem C09_wrapped_quote : forall lim, too_deep (reformat_markdown_text lim ex_wrapped (WInt 5)).
Proof.
  intros lim.
  assert (G : too_deep (reformat_markdown_text (9 + lim) ex_wrapped (WInt 5))).
  { unfold reformat_markdown_text.
    assert (E : reformat_pass 9 ex_wrapped (WInt 5)
      = Ok (lit "foo" ++ [c_nl] ++ lit ">" ++ [c_tab] ++ lit "> x" ++ [c_nl])) by (vm_compute; reflexivity).
    rewrite (approx_nd _ _ (approx_pass 9 (9 + lim) ex_wrapped (WInt 5) ltac:(lia)))
      by (rewrite E; intros e Ee; discriminate).
    rewrite E. cbn [bind]. apply too_deep_bind. cbn [Nat.add reformat_pass]. apply too_deep_bind.
    change (splitlines _) with [lit "foo"; lit ">" ++ [c_tab] ++ lit "> x"]. apply wrapped_quote_deep. }
  destruct (approx_reformat lim (9 + lim) ex_wrapped (WInt 5) ltac:(lia)) as [E|E]; [rewrite <- E; exact G|exact E].
Qed.

(** The hypotheses hold of nested quotes and lists with lazy lines. *)
Definition ex_nested : str :=
  lit "- a" ++ [c_nl] ++ lit "  > > b" ++ [c_nl] ++ lit "  >   > c" ++ [c_nl] ++ lit "d > e".

Example C09_nonvacuous :
  plain_whitespace ex_nested
  /\ reformat_markdown_text 1 ex_nested (WInt 80) = Err RecursionError
  /\ exists out, reformat_markdown_text 9 ex_nested (WInt 80) = Ok out.
Proof.
  split; [|split; [vm_compute; reflexivity|eexists; vm_compute; reflexivity]].
  unfold plain_whitespace. apply Forall_forall. intros c Hc. vm_compute in Hc.
  repeat destruct Hc as [<-|Hc]; try (intros; left; reflexivity); try (intros; right; reflexivity);
    try discriminate. destruct Hc.
Qed.

(** Tabs that are not in front of a [>] do no harm. *)
Definition ex_tabs : str := [c_tab] ++ lit "a" ++ [c_tab] ++ lit "b > c" ++ [c_nl] ++ lit "-" ++ [c_sp; c_tab] ++ lit "d".

Example C09_reformat_nonvacuous :
  Forall plain_indent (splitlines ex_tabs) /\ ~ plain_whitespace ex_tabs
  /\ exists out, reformat_markdown_text 9 ex_tabs (WInt 80) = Ok out.
Proof.
  split; [|split].
  - assert (O := splitlines_one_line ex_tabs).
    assert (E : forallb (ProofsPlain.plain false) (splitlines ex_tabs) = true) by (vm_compute; reflexivity).
    rewrite forallb_forall in E. rewrite Forall_forall in *. intros l Hl. apply plain_spec; auto.
  - intros H. apply Forall_inv in H. destruct (H eq_refl) as [G|G]; discriminate.
  - eexists. vm_compute. reflexivity.
Qed.

Example C09_quotable_nonvacuous :
  quotable (lit "  > >  > x") /\ ~ quotable (c_tab :: lit "> x").
Proof.
  split.
  - intros a b E Ha. apply Forall_forall. intros c Hc Hs.
    assert (G : In c (lit "  > >  > x")) by (rewrite E; apply in_or_app; left; exact Hc).
    vm_compute in G. repeat destruct G as [<-|G]; try reflexivity; try discriminate. destruct G.
  - intros H. specialize (H [c_tab] (lit " x") eq_refl).
    assert (G : Forall (fun c => is_space c = true -> c = c_sp) [c_tab]).
    { apply H. repeat constructor. }
    inversion G as [|? ? G1 _]. specialize (G1 eq_refl). discriminate.
Qed.
