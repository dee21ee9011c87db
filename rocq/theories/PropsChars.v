(** Properties C04, C05 and C50: the characters of the formatted text. *)
From Coq Require Import String.
From Verif Require Import Py Regex Utils TextWrap Lines Detectors Formatters Logging Cli.
From Verif Require Import Base SpecCli ProofsCli PropsCli ProofsParser ProofsShapes ProofsChars.

(** * Vocabulary *)

(** The Unicode line separators: \n, vertical tab, form feed, \r, FS, GS, RS, NEL, LS,
    PS. *)
Definition line_separators : list char :=
  [10; 11; 12; 13; 28; 29; 30; 133; 8232; 8233]%N.

(** The characters the tool writes itself: space, newline, the decimal digits and
    [# . - | : > [ ] `]. *)
Definition markup_characters : list char :=
  [32; 10]%N ++ lit "0123456789" ++ lit "#.-|:>[]`".

Lemma line_separators_spec c : In c line_separators <-> is_linebreak c = true.
Proof.
  unfold line_separators, is_linebreak. split.
  - cbn. intuition (subst; reflexivity).
  - rewrite !orb_true_iff, !andb_true_iff, !N.leb_le, !N.eqb_eq. intros H.
    assert (c = 10 \/ c = 11 \/ c = 12 \/ c = 13 \/ c = 28 \/ c = 29 \/ c = 30
            \/ c = 133 \/ c = 8232 \/ c = 8233)%N as G by lia.
    cbn. intuition (subst; auto 15).
Qed.

Lemma markup_spec c : is_markup c = true <-> In c markup_characters.
Proof.
  unfold is_markup, is_digit, markup_characters. split.
  - rewrite orb_true_iff, andb_true_iff, !N.leb_le. intros [H|H].
    + assert (c = 48 \/ c = 49 \/ c = 50 \/ c = 51 \/ c = 52 \/ c = 53 \/ c = 54 \/ c = 55
              \/ c = 56 \/ c = 57)%N as G by lia.
      cbn. intuition (subst; auto 30).
    + apply existsb_exists in H. destruct H as (x & Hx & E). apply N.eqb_eq in E. subst x.
      cbn in Hx |- *. intuition (subst; auto 30).
  - cbn. intuition (subst; reflexivity).
Qed.

(** What [reformat_markdown_text] returns is a pass's output, trimmed, plus a newline. *)
Lemma reformat_ok_pass lim text w out :
  reformat_markdown_text lim text w = Ok out ->
  exists t, reformat_pass lim text w = Ok t /\ reformat_pass lim t w = Ok t
    /\ out = rstrip t ++ [c_nl].
Proof.
  unfold reformat_markdown_text. intros H. bind_inv H. bind_inv H.
  destruct (str_eqb a0 a) eqn:E1; [|discriminate]. apply str_eqb_eq in E1. subst a0.
  inv H. eauto.
Qed.

Lemma out_chars (P : char -> Prop) lim text w out :
  (forall c, is_markup c = true -> P c) ->
  Forall (Forall P) (splitlines text) ->
  reformat_markdown_text lim text w = Ok out -> Forall P out.
Proof.
  intros Pm H E. destruct (reformat_ok_pass _ _ _ _ E) as (t & E1 & _ & ->).
  apply Forall_app. split; [|repeat constructor; apply Pm; reflexivity].
  apply Forall_rstrip_by. eapply ok_pass; eauto.
Qed.

(** * C04 *)

Theorem C04_only_newline_separators : forall lim text w out c,
  reformat_markdown_text lim text w = Ok out ->
  In c out -> In c line_separators -> c = c_nl.
Proof.
  intros lim text w out c E Hc Hl. apply line_separators_spec in Hl.
  assert (G : Forall (fun c => is_linebreak c = true -> c = c_nl) out).
  { eapply out_chars; [| |exact E].
    - intros d Hd Hb. unfold is_markup in Hd. apply orb_true_iff in Hd. destruct Hd as [Hd|Hd].
      + unfold is_digit in Hd. apply andb_true_iff in Hd. rewrite !N.leb_le in Hd.
        apply line_separators_spec in Hb. cbn in Hb. lia.
      + apply existsb_exists in Hd. destruct Hd as (x & Hx & Ex). apply N.eqb_eq in Ex.
        subst x. cbn in Hx. intuition (subst; auto; discriminate).
    - eapply Forall_impl; [|apply splitlines_no_linebreak].
      intros l Hl'. eapply Forall_impl; [|exact Hl']. cbn. intros. congruence. }
  rewrite Forall_forall in G. auto.
Qed.

(** A text using \r\n, LS, form feed and NEL, in a list, a quote and a paragraph. *)
Example C04_nonvacuous :
  reformat_markdown_text 9
    (lit "- a" ++ [13; 10]%N ++ lit "  b" ++ [8232]%N ++ [12]%N ++ lit "> q" ++ [133]%N
     ++ [13]%N ++ lit "x")%list (WInt 88)
  = Ok (lit "- a b" ++ [10; 10]%N ++ lit "> q" ++ [10; 10]%N ++ lit "x" ++ [10]%N)%list.
Proof. vm_compute. reflexivity. Qed.

(** * C05 *)

Theorem C05_no_invented_characters : forall lim text w out c,
  reformat_markdown_text lim text w = Ok out ->
  In c out -> In c text \/ In c markup_characters.
Proof.
  intros lim text w out c E Hc.
  assert (G : Forall (fun c => In c text \/ In c markup_characters) out).
  { eapply out_chars; [| |exact E].
    - intros d Hd. right. apply markup_spec. exact Hd.
    - apply Forall_splitlines. apply Forall_forall. auto. }
  rewrite Forall_forall in G. auto.
Qed.

(** The markup characters that do not occur in the input and do occur in the output. *)
Example C05_nonvacuous :
  reformat_markdown_text 9 (lit "|a|b|" ++ [13]%N ++ lit "|=|=|" ++ [13]%N ++ lit "|x|y|")
    (WInt 88)
  = Ok (lit "| a | b |" ++ [10]%N ++ lit "|---|---|" ++ [10]%N ++ lit "| x | y |" ++ [10]%N)%list.
Proof. vm_compute. reflexivity. Qed.

(** * C50 *)

Definition has_cr (fs : fsys) (p : path) : Prop :=
  exists s, holds fs p s /\ In c_cr s.

Definition crlf_fs : fsys := fun p =>
  if path_eqb p [] then Some (NDir true)
  else if path_eqb p [lit "a.md"] then Some (NFile (lit "# A" ++ [13; 10]%N) true true)
  else if path_eqb p [lit "b.md"] then Some (NFile (lit "#  A" ++ [13; 10]%N) true true)
  else None.

(** False: a file that only needs its newlines changed is left alone, because reading
    already translated them. *)
Theorem C50_crlf_normalised_refuted :
  exists fs r p es, ra_paths r = [p] /\ ra_check r = false
    /\ main 9 fs no_glob None r = (es, Exit 0)
    /\ has_cr (apply_effects fs es) p.
Proof.
  exists crlf_fs, (ex_args [[lit "a.md"]]), [lit "a.md"].
  exists (fst (main 9 crlf_fs no_glob None (ex_args [[lit "a.md"]]))).
  split; [reflexivity|]. split; [reflexivity|]. split; [vm_compute; reflexivity|].
  exists (lit "# A" ++ [13; 10]%N). split; [|right; right; right; left; reflexivity].
  exists true, true. vm_compute. reflexivity.
Qed.

(** Otherwise no carriage return is left: a named file that still has one after a
    completed in-place run was already formatted (apart from its newlines) and was not
    written to. *)
Theorem C50_crlf_normalised_partial : forall lim fs glob stdin r a es n p,
  parse_args fs glob r = Accepted a -> paths a <> [] -> NoDup (paths a) ->
  ra_output_directory r = None -> ra_output_files r = [] -> ra_check r = false ->
  main lim fs glob stdin r = (es, Exit n) ->
  In p (paths a) -> has_cr (apply_effects fs es) p ->
  (exists old, formats_to lim fs (line_length a) p old old)
  /\ apply_effects fs es p = fs p /\ forall e, In e es -> ~ touches p e.
Proof.
  intros lim fs glob stdin r a es n p Ha Hp Hnd Hd Ho Hc H Hin (s & Hs & Hcr).
  destruct (C43_in_place_run lim fs glob stdin r a es n Ha Hp Hnd Hd Ho Hc H) as [G _].
  destruct (G p Hin) as (old & new & Hf & Hne & Heq).
  destruct (str_eqb new old) eqn:E.
  - apply str_eqb_eq in E. subst new. split; [eauto|]. apply Heq. reflexivity.
  - apply str_eqb_neq in E. specialize (Hne E).
    assert (s = new).
    { destruct Hs as (? & ? & Hs). destruct Hne as (? & ? & Hne). congruence. }
    subst s. destruct Hf as [_ Hf].
    assert (c_cr = c_nl); [|discriminate].
    eapply C04_only_newline_separators; [exact Hf|exact Hcr|cbn; auto 6].
Qed.

Example C50_nonvacuous :
  let es := fst (main 9 crlf_fs no_glob None (ex_args [[lit "b.md"]])) in
  snd (main 9 crlf_fs no_glob None (ex_args [[lit "b.md"]])) = Exit 0
  /\ apply_effects crlf_fs es [lit "b.md"] = Some (NFile (lit "# A" ++ [c_nl]) true true).
Proof. split; vm_compute; reflexivity. Qed.
