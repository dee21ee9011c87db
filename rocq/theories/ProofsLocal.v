(** Parsing is local: lines after a blank line do not change how the lines before it are
    parsed. *)
From Verif Require Import Py Regex Utils Lines Detectors Base SpecLines SpecParser SpecDefinition SpecLocal
  ProofsLines ProofsParser ProofsShapes ProofsKinds ProofsForward ProofsDefinition ProofsDocument ProofsLimit.

Lemma blank_bools b : blank_line b ->
  is_blank_line_line b = true /\ continues_list b = false /\ table_started b = false
  /\ is_setext_underline b = false /\ is_explicit_block_quote_line b = false.
Proof.
  intros Hb. split; [apply blank_line_spec; exact Hb|].
  assert (B : is_blank_line_line b = true) by (apply blank_line_spec; exact Hb).
  split; [unfold continues_list; rewrite B; reflexivity|].
  split; [|split]; apply Bool.not_true_is_false; intros E.
  - apply table_started_spec in E. exact (starts_not_blank _ _ _ (starts_table _ E) Hb).
  - apply underline_spec in E. exact (starts_not_blank _ _ _ (underline_starts _ E) Hb).
  - apply quote_spec in E. exact (starts_not_blank _ _ _ (starts_quote _ E) Hb).
Qed.

Section Append.
  Variable b : str.
  Variable B : list str.
  Hypothesis Hb : blank_line b.
  Let T := b :: B.

  (** The splitter finds the same section if [T] is appended. *)
  Definition extends (f : splitter) : Prop :=
    forall A x r, A <> [] -> f A = Ok (x, r) -> f (A ++ T) = Ok (x, r ++ T).

  (** The splitter finds some section if and only if it does so with [T] appended. *)
  Definition agrees (f : splitter) : Prop :=
    forall A x r, A <> [] -> f A = Ok (x, r) -> exists x' r', f (A ++ T) = Ok (x', r') /\ nilb x' = nilb x.

  Lemma extends_agrees f : extends f -> agrees f.
  Proof. intros H A x r Hn E. exists x, (r ++ T). split; [apply H; assumption|reflexivity]. Qed.

  Lemma span_append {A} (p : A -> bool) l x y t ts :
    p t = false -> span p l = (x, y) -> span p (l ++ t :: ts) = (x, y ++ t :: ts).
  Proof.
    intros Ht. revert x y. induction l as [|a l IH]; intros x y E; cbn [span app] in *.
    - injection E as <- <-. cbn. rewrite Ht. reflexivity.
    - destruct (p a); [|injection E as <- <-; reflexivity]. destruct (span p l) as [u v].
      injection E as <- <-. rewrite (IH _ _ eq_refl). reflexivity.
  Qed.

  Lemma extends_one_line p : extends (split_one_line p).
  Proof.
    intros [|l A] x r Hn E; [congruence|]. cbn in *. destruct (p l); injection E as <- <-; reflexivity.
  Qed.

  Lemma extends_list start : extends (split_list_section start).
  Proof.
    intros [|l A] x r Hn E; [congruence|]. cbn in *. destruct (start l); [|injection E as <- <-; reflexivity].
    destruct (span continues_list A) as [u v] eqn:Es. injection E as <- <-.
    unfold T. rewrite (span_append _ _ _ _ b B (proj1 (proj2 (blank_bools b Hb))) Es). reflexivity.
  Qed.

  Lemma extends_table : extends split_table.
  Proof.
    intros [|l A] x r Hn E; [congruence|]. unfold split_table in *. cbn [app]. destruct (table_started l); [|injection E as <- <-; reflexivity].
    destruct (span table_started A) as [u v] eqn:Es. injection E as <- <-.
    unfold T. rewrite (span_append _ _ _ _ b B (proj1 (proj2 (proj2 (blank_bools b Hb)))) Es). reflexivity.
  Qed.

  Lemma agrees_fenced : agrees split_fenced_code_block.
  Proof.
    intros [|l A] x r Hn E; [congruence|]. cbn in *. destruct (full_fence l) as [f|].
    - destruct (take_fenced f A) as [u v]. injection E as <- <-. destruct (take_fenced f (A ++ T)) as [u' v'].
      eexists _, _. split; reflexivity.
    - injection E as <- <-. eexists _, _. split; reflexivity.
  Qed.

  Lemma take_fenced_append f A u v : take_fenced f A = (u, v) ->
    (exists body close, u = body ++ [close] /\ strip close = f) -> take_fenced f (A ++ T) = (u, v ++ T).
  Proof.
    revert u v. induction A as [|l A IH]; intros u v E Hu; cbn [take_fenced app] in *.
    - injection E as <- <-. destruct Hu as ([|? ?] & ? & ? & _); discriminate.
    - destruct (str_eqb (strip l) f) eqn:Ef; [injection E as <- <-; reflexivity|].
      destruct (take_fenced f A) as [u' v'] eqn:Et. injection E as <- <-.
      destruct Hu as (body & close & Eu & Hc). destruct body as [|? body].
      + injection Eu as -> _. apply str_eqb_neq in Ef. contradiction.
      + injection Eu as <- Eu. rewrite (IH _ _ eq_refl); [reflexivity|]. eauto.
  Qed.

  Lemma agrees_any fs A b' : A <> [] -> Forall agrees fs -> any_splits fs A = Ok b' -> any_splits fs (A ++ T) = Ok b'.
  Proof.
    intros Hn H. induction H as [|f fs Hf H IH]; intros E; cbn [any_splits] in *; [exact E|].
    bind_inv E. destruct a as [x r]. destruct (Hf A x r Hn E0) as (x' & r' & -> & Hx). cbn [bind].
    rewrite Hx. destruct (nilb x); auto.
  Qed.

  Section Sbq.
    Variable sbq : splitter.
    Hypothesis sbq_extends : extends sbq.

    Lemma append_ne (A : list str) : A <> [] -> A ++ T <> [].
    Proof. destruct A; discriminate || congruence. Qed.

    Lemma par_continuation_append A c : A <> [] -> par_continuation sbq A = Ok c -> par_continuation sbq (A ++ T) = Ok c.
    Proof.
      intros Hn E. unfold par_continuation in *. bind_inv E.
      erewrite (agrees_any _ _ _ Hn); [|  |exact E0].
      2:{ repeat (apply Forall_cons; [first [apply agrees_fenced | apply extends_agrees; first
            [apply extends_one_line | apply extends_list | apply extends_table | exact sbq_extends]]|]). apply Forall_nil. }
      cbn [bind]. destruct A as [|l A]; [congruence|]. exact E.
    Qed.

    Lemma par_continuation_blank l : par_continuation sbq (b :: l) = Ok false.
    Proof.
      unfold par_continuation. cbn [any_splits].
      assert (Ha : is_atx_heading_line b = false).
      { apply Bool.not_true_is_false. intros E. apply atx_spec in E. exact (starts_not_blank _ _ _ (starts_atx _ E) Hb). }
      unfold split_atx_heading. rewrite one_line_no by exact Ha. cbn [bind nilb].
      unfold split_blank_line, split_one_line. rewrite (proj1 (blank_bools b Hb)). reflexivity.
    Qed.

    Lemma par_tail_append A x r : par_tail sbq A = Ok (x, r) -> par_tail sbq (A ++ T) = Ok (x, r ++ T).
    Proof.
      revert x r. induction A as [|l A IH]; intros x r E; cbn [app].
      - cbn in E. injection E as <- <-. unfold T. cbn [par_tail app]. rewrite par_continuation_blank. reflexivity.
      - cbn [par_tail] in *. bind_inv E.
        change (l :: A ++ T) with ((l :: A) ++ T).
        rewrite (par_continuation_append (l :: A) a) by (discriminate || assumption). cbn [bind].
        destruct a; [|injection E as <- <-; reflexivity].
        destruct (endswith [c_sp; c_sp] l).
        + destruct A as [|m A]; [discriminate|]. injection E as <- <-. reflexivity.
        + bind_inv E. destruct a as [u v]. injection E as <- <-. rewrite (IH _ _ E1). reflexivity.
    Qed.

    Lemma extends_spis : extends (split_paragraph_ignoring_setext sbq).
    Proof.
      intros [|l A] x r Hn E; [congruence|]. unfold split_paragraph_ignoring_setext in *. cbn [app]. destruct (is_paragraph_start_line l); [|injection E as <- <-; reflexivity].
      destruct (endswith [c_sp; c_sp] l); [injection E as <- <-; reflexivity|].
      bind_inv E. destruct a as [u v]. injection E as <- <-. rewrite (par_tail_append _ _ _ E0). reflexivity.
    Qed.

    Lemma extends_paragraph : extends (split_paragraph sbq).
    Proof.
      intros A x r Hn E. unfold split_paragraph in *. bind_inv E. destruct a as [u v].
      rewrite (extends_spis _ _ _ Hn E0). cbn [bind].
      destruct v as [|l v]; cbn [app].
      - injection E as <- <-. unfold T at 1. rewrite (proj1 (proj2 (proj2 (proj2 (blank_bools b Hb))))). reflexivity.
      - destruct (negb (is_setext_underline l)); injection E as <- <-; reflexivity.
    Qed.

    Lemma extends_setext : extends (split_setext_heading sbq).
    Proof.
      intros A x r Hn E. unfold split_setext_heading in *. bind_inv E. destruct a as [u v].
      rewrite (extends_spis _ _ _ Hn E0). cbn [bind].
      destruct v as [|l v]; cbn [app].
      - injection E as <- <-. unfold T at 1. rewrite (proj1 (proj2 (proj2 (proj2 (blank_bools b Hb))))), andb_false_r. reflexivity.
      - destruct (negb (nilb u) && is_setext_underline l); injection E as <- <-; reflexivity.
    Qed.

    Lemma agrees_redirect f : agrees f -> agrees (fun l => with_redirect (f l)).
    Proof.
      intros H A x r Hn E. rewrite with_redirect_ok in E. destruct (H A x r Hn E) as (x' & r' & E' & Hx).
      exists x', r'. rewrite with_redirect_ok. auto.
    Qed.

    Lemma bq_continuation_append A c : A <> [] -> bq_continuation sbq A = Ok c -> bq_continuation sbq (A ++ T) = Ok c.
    Proof.
      intros Hn E. unfold bq_continuation in *. bind_inv E.
      erewrite (agrees_any _ _ _ Hn); [|  |exact E0].
      2:{ cbn [map]. repeat (apply Forall_cons; [apply agrees_redirect; first [apply agrees_fenced | apply extends_agrees; first
            [apply extends_one_line | apply extends_list | apply extends_table | apply extends_setext]]|]). apply Forall_nil. }
      cbn [bind]. destruct A as [|l A]; [congruence|]. exact E.
    Qed.

    Lemma bq_continuation_blank l : bq_continuation sbq (b :: l) = Ok false.
    Proof.
      unfold bq_continuation. cbn [any_splits map].
      assert (Ha : is_atx_heading_line b = false).
      { apply Bool.not_true_is_false. intros E. apply atx_spec in E. exact (starts_not_blank _ _ _ (starts_atx _ E) Hb). }
      unfold split_atx_heading. rewrite one_line_no by exact Ha. cbn [with_redirect bind nilb].
      unfold split_blank_line, split_one_line. rewrite (proj1 (blank_bools b Hb)). reflexivity.
    Qed.

    Lemma bq_take_append first A x r : bq_take_continuation sbq first A = Ok (x, r) ->
      bq_take_continuation sbq first (A ++ T) = Ok (x, r ++ T).
    Proof.
      revert first x r. induction A as [|l A IH]; intros first x r E; cbn [app].
      - cbn in E. injection E as <- <-. unfold T. cbn [bq_take_continuation app]. rewrite bq_continuation_blank. reflexivity.
      - cbn [bq_take_continuation] in *. bind_inv E.
        change (l :: A ++ T) with ((l :: A) ++ T).
        rewrite (bq_continuation_append (l :: A) a) by (discriminate || assumption). cbn [bind].
        destruct a; [|injection E as <- <-; reflexivity].
        destruct (first && is_setext_underline l && negb (is_thematic_break_line l)); [injection E as <- <-; reflexivity|].
        bind_inv E. destruct a as [u v]. injection E as <- <-. rewrite (IH _ _ _ E1). reflexivity.
    Qed.

    Lemma bq_loop_append ewp n m q A x r : n <= m -> bq_loop sbq ewp n q A = Ok (x, r) ->
      bq_loop sbq ewp m q (A ++ T) = Ok (x, r ++ T).
    Proof.
      assert (Ex := proj2 (proj2 (proj2 (proj2 (blank_bools b Hb))))).
      assert (Et : forall m' q', bq_loop sbq ewp m' q' T = Ok (q', T)).
      { intros m' q'. destruct m'; unfold T; cbn [bq_loop]; rewrite Ex; reflexivity. }
      revert m q A x r. induction n as [|n IH]; intros m q A x r L E; destruct A as [|l A]; cbn [bq_loop app] in E |- *.
      - injection E as <- <-. apply Et.
      - destruct (is_explicit_block_quote_line l) eqn:El; cbn [negb] in *; [discriminate|]. injection E as <- <-.
        destruct m; cbn [bq_loop]; rewrite El; reflexivity.
      - injection E as <- <-. apply Et.
      - destruct m as [|m]; [lia|]. cbn [bq_loop]. destruct (is_explicit_block_quote_line l) eqn:El; cbn [negb] in *.
        2:{ injection E as <- <-. reflexivity. }
        destruct (span is_explicit_block_quote_line (l :: A)) as [run rem] eqn:Es.
        change (l :: A ++ T) with ((l :: A) ++ T). unfold T at 1. rewrite (span_append _ _ _ _ b B Ex Es).
        bind_inv E. rewrite E0. cbn [bind]. destruct a; [|injection E as <- <-; reflexivity].
        bind_inv E. destruct a as [u v]. fold T. rewrite (bq_take_append _ _ _ _ E1). cbn [bind].
        apply IH; [lia|exact E].
    Qed.
  End Sbq.

  Lemma extends_block_quote lim : extends (split_block_quote lim).
  Proof.
    induction lim as [|lim IH]; intros A x r Hn E; [discriminate|]. cbn [split_block_quote] in *.
    eapply bq_loop_append; [exact IH| |exact E]. rewrite app_length. lia.
  Qed.

  Lemma indented_close_append A i c :
    (exists x, In x A /\ ~ blank_line x /\ ~ indented_line x) \/ starts_unindented B ->
    indented_close (A ++ T) i c = indented_close A i c.
  Proof.
    intros H. revert i c. induction A as [|l A IH]; intros i c; cbn [app indented_close].
    - destruct H as [(x & [] & _)|H]. unfold T. cbn [indented_close].
      rewrite (proj2 (blank_iff b) Hb). generalize (S i). destruct H as [H|(bl & x & more & -> & H & Hx & Hi)].
      + induction H as [|y ls Hy H IHl]; intros j; [reflexivity|]. cbn [indented_close]. rewrite (proj2 (blank_iff y) Hy). apply IHl.
      + induction H as [|y ls Hy H IHl]; intros j; cbn [app indented_close].
        * destruct (blank x) eqn:Ex; [apply blank_iff in Ex; contradiction|]. rewrite not_indented_bool; auto.
        * rewrite (proj2 (blank_iff y) Hy). apply IHl.
    - destruct (blank l) eqn:El.
      + apply IH. destruct H as [(x & [->|Hx] & Hn & Hi)|H]; [|left; eauto|auto].
        exfalso. apply Hn, blank_iff. exact El.
      + destruct (4 <=? get_indent l) eqn:Ei; [|reflexivity].
        apply IH. destruct H as [(x & [->|Hx] & Hn & Hi)|H]; [|left; eauto|auto].
        exfalso. apply Hi, indented_spec. unfold is_indented_code_block_start_line. rewrite El, Ei. reflexivity.
  Qed.

  Lemma indented_close_le A i c : c <= i -> indented_close A i c <= i + length A.
  Proof.
    revert i c. induction A as [|l A IH]; intros i c H; cbn [indented_close length]; [lia|].
    destruct (blank l); [specialize (IH (S i) c); lia|]. destruct (4 <=? get_indent l); [|lia].
    specialize (IH (S i) i). lia.
  Qed.

  Lemma indented_no_append l A : split_indented_code_block (l :: A) = Ok ([], l :: A) ->
    split_indented_code_block ((l :: A) ++ T) = Ok ([], (l :: A) ++ T).
  Proof.
    unfold split_indented_code_block. cbn [app]. destruct (negb (blank l) && (4 <=? get_indent l)); [|reflexivity].
    assert (G := indented_close_ge A 1 1 ltac:(lia)). destruct (indented_close A 1 1); [lia|]. discriminate.
  Qed.

  Lemma whole_append content rest : definition_whole content rest -> definition_whole content (rest ++ T).
  Proof.
    intros [(l & body & -> & Hl & Hw & Hr)|[(text & link & head & title & Hh & Hw & -> & Ht)|H]].
    - left. exists l, body. split; [reflexivity|]. split; [exact Hl|]. split; [exact Hw|]. right.
      destruct Hr as [->|(x & rest' & -> & Hx)].
      + exists b, B. split; [reflexivity|]. left. exact Hb.
      + exists x, (rest' ++ T). split; [reflexivity|exact Hx].
    - right. left. exists text, link, head, title. split; [exact Hh|]. split; [exact Hw|]. split; [reflexivity|].
      destruct Ht as [[-> (x & rest' & -> & Hx)]|Ht]; [|auto]. left. split; [reflexivity|].
      exists x, (rest' ++ T). split; [reflexivity|exact Hx].
    - right. right. exact H.
  Qed.

  Lemma first_split_prefix sbq prev f ty next lines x r :
    SPLITTERS sbq = prev ++ (ty, f) :: next ->
    Forall (fun tf => snd tf lines = Ok ([], lines)) prev -> f lines = Ok (x, r) -> x <> [] ->
    first_split (SPLITTERS sbq) lines = Ok ((ty, x), r).
  Proof.
    intros -> Hp E Hn. induction Hp as [|[ty' f'] prev Hf Hp IH]; cbn [app first_split].
    - rewrite E. cbn [bind]. destruct x; [congruence|reflexivity].
    - cbn [snd] in Hf. rewrite Hf. cbn [bind nilb]. exact IH.
  Qed.

  Lemma first_split_append lim before ty content after lines :
    parse_markdown lim lines = Ok (before ++ (ty, content) :: after) ->
    self_contained B (before ++ (ty, content) :: after) ->
    first_split (SPLITTERS (split_block_quote lim)) (content ++ concat (map snd after) ++ T)
    = Ok ((ty, content), concat (map snd after) ++ T).
  Proof.
    intros H Hc. specialize (Hc _ _ _ _ eq_refl). cbv zeta in Hc.
    assert (H' := H). apply parse_markdown_parsed in H. apply parsed_section in H.
    destruct H as (prev & f & next & E & Hf & Hn & Hp).
    assert (Ef := splitter_of_in _ _ _ _ _ E). subst f.
    rewrite app_assoc. set (rest := concat (map snd after)) in *.
    assert (Hne : content ++ rest <> []) by (destruct content; [congruence|discriminate]).
    eapply first_split_prefix; [exact E| |  |exact Hn].
    - rewrite Forall_forall in Hp |- *. intros [ty' f'] Hin. specialize (Hp _ Hin). cbn [snd] in Hp |- *.
      assert (Hin' : In (ty', f') (SPLITTERS (split_block_quote lim))) by (rewrite E; apply in_or_app; auto).
      assert (Ha : forall g, extends g -> g (content ++ rest) = Ok ([], content ++ rest) ->
                g ((content ++ rest) ++ T) = Ok ([], (content ++ rest) ++ T)).
      { intros g Hg Eg. exact (Hg _ _ _ Hne Eg). }
      destruct content as [|l content]; [congruence|].
      cbn in Hin'. destruct Hin' as [G|[G|[G|[G|[G|[G|[G|[G|[G|[G|[G|[G|[]]]]]]]]]]]]]; injection G as <- <-.
      + apply Ha; [apply extends_one_line|exact Hp].
      + apply Ha; [apply extends_one_line|exact Hp].
      + apply Ha; [apply extends_block_quote|exact Hp].
      + apply Ha; [apply extends_list|exact Hp].
      + unfold split_fenced_code_block in *. cbn [app] in *. destruct (full_fence l) as [fe|]; [|reflexivity]. destruct (take_fenced fe (content ++ rest)). discriminate.
      + cbn [app] in *. exact (indented_no_append _ _ Hp).
      + assert (D : ~ definition_line l).
        { intros D. assert (Hs : recognises lim ty (l :: content ++ rest)).
          { apply recognises_split. exists (l :: content), rest. split; [exact Hf|discriminate]. }
          apply recognises_kind in Hs.
          assert (Kd : kind LINK_REFERENCE_DEFINITION l) by exact D.
          destruct (section_type_eq_dec ty LINK_REFERENCE_DEFINITION) as [->|Hty].
          { cbn [splitter_of] in Hf. rewrite Hf in Hp. discriminate. }
          assert (K := kinds_exclusive _ _ _ Hty Hs Kd).
          destruct ty; try (eapply Hc; [reflexivity|exact D]); cbn in K; clear - K; intuition discriminate. }
        cbn [app]. apply lrd_no. exact D.
      + apply Ha; [apply extends_list|exact Hp].
      + apply Ha; [apply extends_paragraph, extends_block_quote|exact Hp].
      + apply Ha; [apply extends_setext, extends_block_quote|exact Hp].
      + apply Ha; [apply extends_table|exact Hp].
      + apply Ha; [apply extends_one_line|exact Hp].
    - destruct ty; cbn [splitter_of] in Hf |- *;
        try (apply extends_one_line; assumption); try (apply extends_list; assumption);
        try (apply extends_block_quote; assumption); try (apply extends_table; assumption);
        try (apply extends_paragraph; [apply extends_block_quote|exact Hne|exact Hf]);
        try (apply extends_setext; [apply extends_block_quote|exact Hne|exact Hf]).
      + destruct Hc as (l & body & close & fence & Ec & Ho & Hcl). subst content. cbn in Hf |- *.
        rewrite (proj2 (full_fence_spec l fence) Ho) in *. destruct (take_fenced fence ((body ++ [close]) ++ rest)) as [u v] eqn:Et.
        apply ok_inj in Hf. injection Hf as Eu Ev. subst u v. rewrite (take_fenced_append _ _ _ _ Et); [reflexivity|].
        exists body, close. split; [reflexivity|]. destruct (opens_fence _ _ Ho) as (c & n & -> & Hc').
        apply closes_spec; auto.
      + destruct content as [|l content]; [congruence|]. cbn [app] in *. unfold split_indented_code_block in *.
        destruct (negb (blank l) && (4 <=? get_indent l)); [|discriminate]. cbv zeta in *.
        assert (Ei : indented_close (content ++ rest) 1 1 = length (l :: content)).
        { injection Hf as Ef Es. assert (L := f_equal (@length _) Ef). rewrite firstn_length in L.
          assert (L2 := f_equal (@length _) Es). rewrite skipn_length in L2. assert (L3 := indented_close_le (content ++ rest) 1 1 ltac:(lia)).
          cbn [length] in *. rewrite app_length in *. lia. }
        rewrite indented_close_append, Ei.
        * f_equal. f_equal; [|].
          -- change (l :: (content ++ rest) ++ T) with (((l :: content) ++ rest) ++ T).
             rewrite <- app_assoc, firstn_app, Nat.sub_diag, firstn_all, firstn_O. apply app_nil_r.
          -- change (l :: (content ++ rest) ++ T) with (((l :: content) ++ rest) ++ T).
             rewrite <- app_assoc, skipn_app, Nat.sub_diag, skipn_all, skipn_O. reflexivity.
        * destruct Hc as [(x & Hx & Hx')|Hc]; [|auto]. left. exists x. split; [|exact Hx']. apply in_or_app. auto.
      + rewrite <- app_assoc. apply split_lrd_recognises. apply whole_append. exact Hc.
  Qed.
End Append.
