(** C06: formatting succeeds on every document *)
From Coq Require Import String.
From Verif Require Import Py Lines Detectors Formatters Base SpecLines SpecParser SpecWrap SpecList SpecQuote
  SpecDefinition SpecTable SpecLimit SpecErrors ProofsLines ProofsLimit PropsLimit ProofsErrors.

(** Every failure of one pass of the formatter has a reason in the text, or in a text nested
    in it. *)
Theorem C06_pass_causes : forall lim text w e,
  reformat_pass lim text w = Err e ->
  exists lines, within (splitlines text) lines /\ reason w lines (exn_base e).
Proof. exact pass_reason. Qed.

(** So has every failure of [reformat_markdown_text], there or in the output of the first
    pass, unless the two passes differ. *)
Theorem C06_causes : forall lim text w e,
  reformat_markdown_text lim text w = Err e ->
  e = ReformatInconsistentException
  \/ (exists lines, within (splitlines text) lines /\ reason w lines (exn_base e))
  \/ (exists t lines, reformat_pass lim text w = Ok t
        /\ within (splitlines t) lines /\ reason w lines (exn_base e)).
Proof.
  intros lim text w e E. unfold reformat_markdown_text in E.
  apply bind_err in E. destruct E as [E|(t & Et & E)]; [right; left; exact (pass_reason _ _ _ _ E)|].
  apply bind_err in E. destruct E as [E|(t' & _ & E)].
  - right. right. destruct (pass_reason _ _ _ _ E) as (lines & H). exists t, lines. auto.
  - destruct (str_eqb t' t); [discriminate|]. injection E as <-. left. reflexivity.
Qed.

(** The exceptions a caller can see. *)
Theorem C06_exceptions : forall lim text w e,
  reformat_markdown_text lim text w = Err e ->
  e = ReformatInconsistentException \/ exn_base e = IndexError \/ exn_base e = StopIteration
  \/ exn_base e = RecursionError \/ exn_base e = RuntimeError GeneratorStop
  \/ (exists n a b, exn_base e = MarkdownFormatException n a b)
  \/ (exn_base e = RuntimeError InvalidWidth /\ exists q, w = WFloat q).
Proof.
  intros lim text w e E.
  assert (R : forall lines x, reason w lines x -> x = IndexError \/ x = StopIteration
    \/ x = RecursionError \/ x = RuntimeError GeneratorStop
    \/ (exists n a b, x = MarkdownFormatException n a b)
    \/ (x = RuntimeError InvalidWidth /\ exists q, w = WFloat q)).
  { intros lines x H. destruct H as [| | | |? ? ? n a b| ? q|e' _ [->| ->]|]; auto 10.
    - right. right. right. right. left. exists n, a, b. reflexivity.
    - right. right. right. right. right. eauto. }
  apply C06_causes in E. destruct E as [E|[(lines & _ & H)|(t & lines & _ & _ & H)]]; [auto| |];
    right; exact (R _ _ H).
Qed.

(** Documents that do not fail: one pass succeeds if there are no tables, no fences, no link
    reference definitions, no hard line breaks and no words that begin with a dot, and all
    whitespace in front of any [>] is plain spaces. *)
Theorem C06_pass_partial : forall text,
  Forall plain_indent (splitlines text) -> Forall calm (splitlines text) ->
  exists n, forall lim w, n <= lim -> (forall q, w <> WFloat q) ->
    exists t, reformat_pass lim text w = Ok t.
Proof.
  intros text P C. destruct (C09_pass text P) as (n & Hn). exists n. intros lim w L W.
  destruct (Hn lim w L) as [N _]. destruct (reformat_pass lim text w) as [t|e] eqn:E; [eauto|].
  exfalso. destruct (pass_reason _ _ _ _ E) as (lines & Hw & R).
  apply (N e eq_refl). eapply calm_reason; [|exact W|exact R]. eapply calm_within; eassumption.
Qed.

(** If what the first pass makes of the text has none of these either, nothing but a difference
    between the two passes can go wrong. *)
Theorem C06_partial : forall text w,
  (forall q, w <> WFloat q) ->
  Forall plain_indent (splitlines text) -> Forall calm (splitlines text) ->
  (forall lim t, reformat_pass lim text w = Ok t -> Forall calm (splitlines t)) ->
  exists n, forall lim, n <= lim ->
    (exists out, reformat_markdown_text lim text w = Ok out)
    \/ reformat_markdown_text lim text w = Err ReformatInconsistentException.
Proof.
  intros text w W P C H. destruct (C06_pass_partial text P C) as (n & Hn).
  destruct (Hn n w (le_n n) W) as (t & Et). assert (C' := H n t Et).
  assert (P' := C09_output _ _ _ _ P Et).
  destruct (C06_pass_partial t P' C') as (m & Hm). exists (n + m). intros lim L.
  assert (E : reformat_pass lim text w = Ok t).
  { destruct (Hn lim w ltac:(lia) W) as (t' & Et'). rewrite <- Et. apply approx_nd.
    - apply approx_pass. lia.
    - rewrite Et. intros e Ee. discriminate. }
  destruct (Hm lim w ltac:(lia) W) as (t2 & E2). unfold reformat_markdown_text. rewrite E. cbn [bind].
  rewrite E2. cbn [bind]. destruct (str_eqb t2 t); eauto.
Qed.

(** * The documents that fail *)

Lemma fails_from n text w e : exn_base e <> RecursionError ->
  reformat_markdown_text n text w = Err e ->
  forall lim, n <= lim -> reformat_markdown_text lim text w = Err e.
Proof.
  intros H E lim L. rewrite <- E. apply C09_limit_reformat; [exact L|]. rewrite E.
  intros e' Ee. injection Ee as <-. exact H.
Qed.

(** Each kind of failure happens. *)
Theorem C06_refuted : forall lim, 9 <= lim ->
  (* words that begin with a single dot *)
  reformat_markdown_text lim (lit "see `x` .gitignore") (WInt 80) = Err IndexError
  /\ reformat_markdown_text lim (lit "[a]: /u '`b` .c'") (WInt 80) = Err IndexError
  (* a table of one line, a fence in the last line *)
  /\ reformat_markdown_text lim (lit "|x|") (WInt 80) = Err IndexError
  /\ reformat_markdown_text lim (lit "```") (WInt 80) = Err IndexError
  (* a row with too many cells *)
  /\ reformat_markdown_text lim (str_join [c_nl] [lit "|a|"; lit "|-|"; lit "|b|c|"]) (WInt 80)
     = Err (MarkdownFormatException 3 1 2)
  (* a hard line break or a label at the end *)
  /\ reformat_markdown_text lim (lit "a" ++ [c_nl] ++ lit "b  ") (WInt 80) = Err StopIteration
  /\ reformat_markdown_text lim (lit "[a]:" ++ [c_nl] ++ lit "/u") (WInt 80) = Err StopIteration
  /\ reformat_markdown_text lim (lit "- a" ++ [c_nl] ++ lit "  b  ") (WInt 80)
     = Err (Redirected (Redirected (RuntimeError GeneratorStop)))
  (* a width that is neither an integer nor infinite *)
  /\ reformat_markdown_text lim (lit "---") (WFloat (inject_Z 5)) = Err (RuntimeError InvalidWidth)
  (* only in the second pass *)
  /\ reformat_markdown_text lim (lit "aaaa |x|") (WInt 4) = Err IndexError
  /\ (exists t, reformat_pass lim (lit "aaaa |x|") (WInt 4) = Ok t)
  (* two passes that differ *)
  /\ reformat_markdown_text lim (lit "a" ++ [c_sp; c_tab; c_sp] ++ lit "b") (WInt 80)
     = Err ReformatInconsistentException.
Proof.
  intros lim L.
  repeat (split; [apply (fails_from 9); [discriminate|vm_compute; reflexivity|exact L]|]).
  split; [|apply (fails_from 9); [discriminate|vm_compute; reflexivity|exact L]].
  destruct (reformat_pass 9 (lit "aaaa |x|") (WInt 4)) as [t|e] eqn:E; [|vm_compute in E; discriminate].
  exists t. rewrite <- E. apply approx_nd; [apply approx_pass; exact L|]. rewrite E. intros e Ee. discriminate.
Qed.

(** * The theorems apply *)

(** [calm] as a test. *)
Fixpoint dots_test (inside : bool) (l : str) : bool :=
  match l with
  | [] => true
  | c :: l' => (negb (N.eqb c c_dot) || inside) && dots_test (negb (is_space c) && negb (N.eqb c c_gt)) l'
  end.
Definition calm_test (l : str) : bool :=
  dots_test false l && negb (contains [c_bar] l) && negb (contains (lit "]:") l)
  && negb (contains (lit "```") l) && negb (contains (lit "~~~") l) && negb (endswith (lit "  ") l).

Lemma dots_test_spec l inside : dots_test inside l = true -> forall a b, l = a ++ c_dot :: b ->
  (a = [] /\ inside = true) \/ exists a' c, a = a' ++ [c] /\ is_space c = false /\ c <> c_gt.
Proof.
  revert inside. induction l as [|x l IH]; intros inside H a b E; [destruct a; discriminate|].
  cbn [dots_test] in H. apply andb_true_iff in H. destruct H as [H1 H2]. destruct a as [|y a].
  - injection E as -> _. left. split; [reflexivity|]. apply orb_true_iff in H1. destruct H1; [discriminate|assumption].
  - injection E as -> ->. right. destruct (IH _ H2 a b eq_refl) as [[-> G]|(a' & c & -> & G)].
    + exists [], y. apply andb_true_iff in G. destruct G as [G1 G2]. split; [reflexivity|].
      split; [apply negb_true_iff; exact G1|]. intros ->. discriminate.
    + exists (y :: a'), c. auto.
Qed.

Lemma calm_test_spec l : calm_test l = true -> calm l.
Proof.
  unfold calm_test. rewrite !andb_true_iff, !negb_true_iff. intros [[[[[H1 H2] H3] H4] H5] H6].
  assert (N : forall p, contains p l = false -> forall a b, l <> a ++ p ++ b).
  { intros p G a b E. assert (T : contains p l = true) by (apply contains_spec; eauto). congruence. }
  split; [|split; [|split; [|split; [|split]]]].
  - intros a b E. destruct (dots_test_spec l false H1 a b E) as [[_ G]|G]; [discriminate|exact G].
  - intros G. apply in_split in G. destruct G as (a & b & ->). exact (N [c_bar] H2 a b eq_refl).
  - apply N. exact H3.
  - apply N. exact H4.
  - apply N. exact H5.
  - intros p E. assert (T : endswith (lit "  ") l = true) by (apply endswith_spec; eauto). congruence.
Qed.

Definition ex_calm : str := str_join [c_nl]
  [lit "# Notes"; []; lit "Read them. All of them..."; []; lit "1. one"; lit "2. two"; lit "    - nested.";
   []; lit "> quoted"; lit "lazy"; lit "> > deeper e.g. here"; []; lit "---"; lit "a"; lit "==="].

Lemma plain_test l : forallb (fun c => implb (is_space c) (N.eqb c c_sp)) l = true -> plain_indent l.
Proof.
  intros H a ws b -> Hw. unfold spaces in Hw. rewrite Forall_forall in *. rewrite forallb_forall in H.
  intros c Hc. specialize (H c). rewrite (Hw c Hc) in H. apply N.eqb_eq, H.
  apply in_or_app. right. apply in_or_app. left. exact Hc.
Qed.

Example C06_partial_nonvacuous :
  Forall plain_indent (splitlines ex_calm) /\ Forall calm (splitlines ex_calm)
  /\ (forall lim t, reformat_pass lim ex_calm (WInt 40) = Ok t -> Forall calm (splitlines t))
  /\ exists out, reformat_markdown_text 9 ex_calm (WInt 40) = Ok out.
Proof.
  assert (P : forall t, forallb (forallb (fun c => implb (is_space c) (N.eqb c c_sp))) (splitlines t) = true ->
    forallb calm_test (splitlines t) = true -> Forall plain_indent (splitlines t) /\ Forall calm (splitlines t)).
  { intros t H1 H2. rewrite forallb_forall in H1, H2. split; apply Forall_forall; intros l Hl.
    - apply plain_test. auto.
    - apply calm_test_spec. auto. }
  destruct (P ex_calm) as [P1 P2]; [vm_compute; reflexivity..|]. split; [exact P1|]. split; [exact P2|].
  destruct (reformat_markdown_text 9 ex_calm (WInt 40)) as [out|e] eqn:E9; [|vm_compute in E9; discriminate].
  split; [|eauto]. intros lim t E.
  destruct (reformat_pass 9 ex_calm (WInt 40)) as [t9|e] eqn:Ep; [|vm_compute in Ep; discriminate].
  assert (t = t9).
  { destruct (Nat.le_ge_cases lim 9) as [L|L].
    - assert (G : reformat_pass 9 ex_calm (WInt 40) = reformat_pass lim ex_calm (WInt 40)).
      { apply approx_nd; [apply approx_pass; exact L|]. rewrite E. intros e Ee. discriminate. }
      congruence.
    - assert (G : reformat_pass lim ex_calm (WInt 40) = reformat_pass 9 ex_calm (WInt 40)).
      { apply approx_nd; [apply approx_pass; exact L|]. rewrite Ep. intros e Ee. discriminate. }
      congruence. }
  subst t. apply P; vm_compute in Ep; injection Ep as <-; vm_compute; reflexivity.
Qed.

Example C06_causes_nonvacuous :
  exists e lines, reformat_pass 9 (lit "- a" ++ [c_nl] ++ lit "  b  ") (WInt 80) = Err e
    /\ within (splitlines (lit "- a" ++ [c_nl] ++ lit "  b  ")) lines
    /\ lines <> splitlines (lit "- a" ++ [c_nl] ++ lit "  b  ")
    /\ reason (WInt 80) lines (exn_base e).
Proof.
  exists (Redirected (Redirected (RuntimeError GeneratorStop))), [lit "a"; lit "b  "].
  split; [vm_compute; reflexivity|]. split; [|split; [discriminate|]].
  - apply (within_entry _ BULLET_LIST [lit "- a"; lit "  b  "] [] [lit "- a"; lit "  b  "] [] [lit "a"; lit "b  "]).
    + exists 9, [(BULLET_LIST, [lit "- a"; lit "  b  "])]. split; [vm_compute; reflexivity|left; reflexivity].
    + left. reflexivity.
    + reflexivity.
    + exists (lit "- a"), [lit "  b  "], [], (lit "-"), (lit " a"), [lit "b  "].
      split; [reflexivity|]. split; [|split; [reflexivity|]].
      * split; [reflexivity|]. split; [constructor|]. split; [left; exists c_dash; cbn; auto|].
        right. exists (lit "a"). reflexivity.
      * constructor; [|constructor]. exists (lit "  "). split; [reflexivity|].
        split; [repeat constructor|]. split; [cbn; lia|left; reflexivity].
    + constructor.
  - apply reason_stop; [|right; reflexivity]. right. left. left. exists (lit "b"). reflexivity.
Qed.
