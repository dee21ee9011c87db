(** The kinds of lines exclude each other, up to the overlaps of [overlapping]; which
    splitter comes first. *)
From Verif Require Import Py Regex Utils Lines Detectors Base SpecLines SpecParser
  ProofsLines ProofsRegex ProofsParser ProofsShapes.

(** ** Forward computation of the first section *)

Lemma first_split_skip ty f fs lines :
  f lines = Ok ([], lines) -> first_split ((ty, f) :: fs) lines = first_split fs lines.
Proof. intros H. cbn. rewrite H. reflexivity. Qed.

Lemma one_line_no p l rest : p l = false -> split_one_line p (l :: rest) = Ok ([], l :: rest).
Proof. intros H. cbn. rewrite H. reflexivity. Qed.

Lemma list_no start l rest :
  start l = false -> split_list_section start (l :: rest) = Ok ([], l :: rest).
Proof. intros H. cbn. rewrite H. reflexivity. Qed.

Lemma block_quote_no lim l rest :
  is_explicit_block_quote_line l = false ->
  split_block_quote (S lim) (l :: rest) = Ok ([], l :: rest).
Proof. intros H. cbn [split_block_quote length bq_loop]. rewrite H. reflexivity. Qed.

(** The first non-blank character of a line decides most of its kinds. *)
Lemma first_char_unique (ws : str) c s ws' c' s' :
  ws ++ c :: s = ws' ++ c' :: s' -> spaces ws -> spaces ws' ->
  is_space c = false -> is_space c' = false -> ws = ws' /\ c = c' /\ s = s'.
Proof.
  revert ws'. induction ws as [|x ws IH]; intros [|y ws'] E Hw Hw' Hc Hc'; cbn in E.
  - injection E as -> ->. auto.
  - injection E as -> _. inv Hw'. congruence.
  - injection E as -> _. inv Hw. congruence.
  - injection E as -> E. inv Hw. inv Hw'. destruct (IH ws' E) as (-> & -> & ->); auto.
Qed.

Lemma section_type_eq_dec (a b : section_type) : {a = b} + {a <> b}.
Proof. decide equality. Defined.

(** What the first line of a section of each type is. *)
Definition kind (ty : section_type) (l : str) : Prop :=
  match ty with
  | ATX_HEADING => atx_line l
  | BLANK_LINE => blank_line l
  | BLOCK_QUOTE => quote_line l
  | BULLET_LIST => bullet_line l
  | FENCED_CODE_BLOCK => fence_line l
  | INDENTED_CODE_BLOCK => indented_line l
  | LINK_REFERENCE_DEFINITION => definition_line l
  | ORDERED_LIST => ordered_line l
  | PARAGRAPH => paragraph_line l
  | SETEXT_HEADING => paragraph_line l
  | TABLE => table_line l
  | THEMATIC_BREAK => thematic_line l
  end.

Lemma opens_fence_line l fence : opens l fence -> fence_line l.
Proof.
  intros (ws & c & n & info & -> & Hw & Hc & Hn & _ & _).
  destruct n as [|[|[|n]]]; try lia. exists ws, c, (repeat c n ++ info). auto.
Qed.

Lemma shape_kind ty l rest : section_shape ty (l :: rest) -> kind ty l.
Proof.
  destruct ty; cbn [section_shape kind]; intros H;
    try (destruct H as (x & E & H); injection E as -> ->; exact H).
  - destruct H as (x & r & E & H & _). injection E as -> ->. exact H.
  - destruct H as (x & r & E & H & _). injection E as -> ->. exact H.
  - destruct H as (x & r & f & E & H & _). injection E as -> ->.
    eapply opens_fence_line; eauto.
  - destruct H as (x & r & E & H & _). injection E as -> ->. exact H.
  - destruct H as (x & r & E & H). injection E as -> ->. exact H.
  - destruct H as (x & r & E & H & _). injection E as -> ->. exact H.
  - destruct H as (x & r & E & H & _). injection E as -> ->. exact H.
  - destruct H as (x & r & u & E & H & _). injection E as -> ->. exact H.
  - inv H. assumption.
Qed.

Lemma recognises_split lim ty lines :
  recognises lim ty lines
  <-> exists s r, splitter_of (split_block_quote lim) ty lines = Ok (s, r) /\ s <> [].
Proof.
  split.
  - intros (f & s & r & Hin & Hf & Hn). exists s, r. split; [|exact Hn].
    apply in_split in Hin. destruct Hin as (prev & next & E).
    apply splitter_of_in in E. subst f. exact Hf.
  - intros (s & r & Hf & Hn). exists (splitter_of (split_block_quote lim) ty), s, r.
    split; [|auto]. destruct ty; cbn [splitter_of In SPLITTERS]; tauto.
Qed.

Lemma splitter_of_lossless lim ty : lossless (splitter_of (split_block_quote lim) ty).
Proof.
  destruct (block_quote_contract lim) as (H & _).
  assert (G := lossless_SPLITTERS _ H). rewrite Forall_forall in G.
  apply (G (ty, splitter_of (split_block_quote lim) ty)).
  destruct ty; cbn [splitter_of In SPLITTERS]; tauto.
Qed.

Lemma recognises_kind lim ty l rest : recognises lim ty (l :: rest) -> kind ty l.
Proof.
  intros H. apply recognises_split in H. destruct H as (s & r & H & Hn).
  assert (Hs := splitter_shape _ _ _ _ _ H Hn).
  apply splitter_of_lossless in H. destruct s as [|l' s]; [congruence|].
  injection H as <- _. eapply shape_kind; eauto.
Qed.

(** ** Disjointness *)

(** Indentation below four, or any, and the first non-blank character in [cs] (or a
    digit). *)
Definition starts (l : str) (low : bool) (P : char -> bool) : Prop :=
  exists ws c body, l = ws ++ c :: body /\ spaces ws /\ is_space c = false /\ P c = true
    /\ (low = true -> length ws < 4).

Definition mem (cs : list char) (c : char) : bool := existsb (N.eqb c) cs.

Lemma mem_in cs c : mem cs c = true <-> In c cs.
Proof.
  unfold mem. rewrite existsb_exists. split.
  - intros (x & Hx & E). apply N.eqb_eq in E. congruence.
  - intros H. exists c. rewrite N.eqb_refl. auto.
Qed.

Lemma starts_atx l : atx_line l -> starts l true (mem [c_hash]).
Proof. intros (ws & body & -> & Hw & Hl). exists ws, c_hash, body. repeat split; auto. Qed.
Lemma starts_quote l : quote_line l -> starts l true (mem [c_gt]).
Proof. intros (ws & body & -> & Hw & Hl). exists ws, c_gt, body. repeat split; auto. Qed.
Lemma starts_bullet l : bullet_line l -> starts l true (mem [c_star; c_plus; c_dash]).
Proof.
  intros (ws & b & body & -> & Hw & Hl & Hb). exists ws, b, (c_sp :: body).
  repeat split; auto; [apply bullet_chars_not_space|apply mem_in]; exact Hb.
Qed.
Lemma starts_fence l : fence_line l -> starts l false (mem [c_bt; c_tilde]).
Proof.
  intros (ws & c & body & -> & Hw & Hc). exists ws, c, ([c; c] ++ body).
  repeat split; auto; [|apply mem_in; exact Hc|discriminate].
  destruct Hc as [<-|[<-|[]]]; reflexivity.
Qed.
Lemma starts_definition l : definition_line l -> starts l true (mem [c_lbr]).
Proof.
  intros (ws & label & body & -> & Hw & Hl & _).
  exists ws, c_lbr, (label ++ c_rbr :: c_colon :: body). repeat split; auto.
Qed.
Lemma starts_ordered l : ordered_line l -> starts l true is_digit.
Proof.
  intros (ws & ds & body & -> & Hw & Hl & Hn & Hd). destruct ds as [|d ds]; [congruence|].
  inv Hd. exists ws, d, (ds ++ c_dot :: c_sp :: body).
  repeat split; auto. apply digit_not_space. assumption.
Qed.
Lemma starts_table l : table_line l -> starts l false (mem [c_bar]).
Proof. intros (ws & body & -> & Hw). exists ws, c_bar, body. repeat split; auto. discriminate. Qed.
Lemma starts_thematic l : thematic_line l -> starts l true (mem [c_star; c_us; c_dash]).
Proof.
  intros (c & ws & body & -> & Hw & Hl & Hc & _). exists ws, c, body.
  repeat split; auto; [apply thematic_char_not_space|apply mem_in]; exact Hc.
Qed.

Lemma starts_disjoint l b1 b2 P Q :
  starts l b1 P -> starts l b2 Q -> (forall c, P c = true -> Q c = true -> False) -> False.
Proof.
  intros (ws & c & body & E & Hw & Hc & HP & _) (ws' & c' & body' & E' & Hw' & Hc' & HQ & _) H.
  rewrite E in E'.
  destruct (first_char_unique ws c body ws' c' body' E' Hw Hw' Hc Hc') as (_ & <- & _).
  eapply H; eauto.
Qed.

Lemma starts_not_blank l b P : starts l b P -> blank_line l -> False.
Proof.
  intros (ws & c & body & -> & Hw & Hc & _) H. unfold blank_line, spaces in H.
  apply Forall_app in H. destruct H as [_ H]. inv H. congruence.
Qed.

Lemma starts_not_indented l P : starts l true P -> indented_line l -> False.
Proof.
  intros (ws & c & body & E & Hw & Hc & _ & Hl) (ws' & c' & body' & E' & Hw' & Hc' & Hl').
  rewrite E in E'.
  destruct (first_char_unique ws c body ws' c' body' E' Hw Hw' Hc Hc') as (<- & _ & _).
  specialize (Hl eq_refl). lia.
Qed.

Lemma indented_not_blank l : indented_line l -> blank_line l -> False.
Proof.
  intros (ws & c & body & -> & Hw & Hc & _) H. unfold blank_line, spaces in H.
  apply Forall_app in H. destruct H as [_ H]. inv H. congruence.
Qed.

Ltac starts_of H :=
  first [ apply starts_atx in H | apply starts_quote in H | apply starts_bullet in H
        | apply starts_fence in H | apply starts_definition in H | apply starts_ordered in H
        | apply starts_table in H | apply starts_thematic in H ].

Ltac chars_differ :=
  let c := fresh "c" in let H1 := fresh in let H2 := fresh in
  intros c H1 H2; unfold mem, is_digit in *; cbn [existsb] in *; lia.

(** Two kinds of line exclude each other. *)
Ltac exclude H1 H2 :=
  exfalso;
  first
  [ (* paragraphs exclude everything but definitions *)
    destruct H1 as (?&?&?&?&?&?&?&?&?); tauto
  | destruct H2 as (?&?&?&?&?&?&?&?&?); tauto
  | exact (indented_not_blank _ H1 H2) | exact (indented_not_blank _ H2 H1)
  | starts_of H1; exact (starts_not_blank _ _ _ H1 H2)
  | starts_of H2; exact (starts_not_blank _ _ _ H2 H1)
  | starts_of H1; exact (starts_not_indented _ _ H1 H2)
  | starts_of H2; exact (starts_not_indented _ _ H2 H1)
  | starts_of H1; starts_of H2; apply (starts_disjoint _ _ _ _ _ H1 H2); chars_differ ].

Lemma kinds_exclusive a b l :
  a <> b -> kind a l -> kind b l ->
  (In (a, b) overlapping \/ In (b, a) overlapping)
  \/ (a = PARAGRAPH /\ b = SETEXT_HEADING) \/ (a = SETEXT_HEADING /\ b = PARAGRAPH).
Proof.
  intros Hne H1 H2.
  destruct a, b; try congruence;
    try (left; cbn; tauto); try (right; tauto);
    cbn [kind] in H1, H2; exclude H1 H2.
Qed.

Lemma quote_kind ty l : kind ty l -> quote_line l -> ty <> BLOCK_QUOTE -> False.
Proof.
  intros H Hq Hne. destruct (kinds_exclusive ty BLOCK_QUOTE l Hne H Hq) as [[G|G]|[G|G]].
  - cbn in G. repeat (destruct G as [G|G]; [discriminate G|]). exact G.
  - cbn in G. repeat (destruct G as [G|G]; [discriminate G|]). exact G.
  - destruct G. discriminate.
  - destruct G. discriminate.
Qed.

Lemma paragraph_or_setext sbq lines p r h r' :
  lossless sbq ->
  split_paragraph sbq lines = Ok (p, r) -> split_setext_heading sbq lines = Ok (h, r') ->
  p <> [] -> h <> [] -> False.
Proof.
  intros Hl H1 H2 Hp Hh. apply split_paragraph_ok in H1.
  destruct H1 as [[-> _]|(_ & H1 & Hr)]; [congruence|].
  apply split_setext_ok in H2. destruct H2 as [[-> _]|(p' & u & _ & _ & Hu & H2)]; [congruence|].
  rewrite H1 in H2. injection H2 as -> ->. congruence.
Qed.

Lemma recognises_exclusive lim lines a b :
  a <> b -> recognises lim a lines -> recognises lim b lines ->
  In (a, b) overlapping \/ In (b, a) overlapping.
Proof.
  intros Hne Ha Hb. destruct lines as [|l rest].
  - exfalso. apply recognises_split in Ha. destruct Ha as (s & r & H & Hn).
    apply splitter_of_lossless in H. destruct s; [congruence|discriminate].
  - destruct (kinds_exclusive a b l Hne) as [H|[[-> ->]|[-> ->]]];
      try (eapply recognises_kind; eassumption); [exact H| |]; exfalso;
      apply recognises_split in Ha; apply recognises_split in Hb;
      destruct Ha as (s & r & H & Hn), Hb as (s' & r' & H' & Hn');
      cbn [splitter_of] in H, H'; destruct (block_quote_contract lim) as (Hl & _);
      eauto using paragraph_or_setext.
Qed.

Lemma recognises_fenced lim l rest fence :
  opens l fence -> recognises lim FENCED_CODE_BLOCK (l :: rest).
Proof.
  intros H. apply full_fence_spec in H. apply recognises_split.
  cbn [splitter_of split_fenced_code_block]. rewrite H.
  destruct (take_fenced fence rest) as [more rem]. exists (l :: more), rem.
  split; [reflexivity|discriminate].
Qed.

(** ** The first section is that of the first splitter that recognises the lines *)

Definition rank (ty : section_type) : nat :=
  match ty with
  | ATX_HEADING => 0 | BLANK_LINE => 1 | BLOCK_QUOTE => 2 | BULLET_LIST => 3
  | FENCED_CODE_BLOCK => 4 | INDENTED_CODE_BLOCK => 5 | LINK_REFERENCE_DEFINITION => 6
  | ORDERED_LIST => 7 | PARAGRAPH => 8 | SETEXT_HEADING => 9 | TABLE => 10
  | THEMATIC_BREAK => 11
  end.

Lemma ranked_prev sbq prev ty f next ty' :
  SPLITTERS sbq = prev ++ (ty, f) :: next -> rank ty' < rank ty ->
  In (ty', splitter_of sbq ty') prev.
Proof.
  unfold SPLITTERS. intros E Hr.
  repeat (destruct prev as [|? prev];
    [cbn [app] in E; injection E; intros; subst; destruct ty'; cbn [rank] in Hr; try lia;
     cbn [In splitter_of]; tauto
    |cbn [app] in E; injection E as <- E]).
  destruct prev; discriminate.
Qed.

Lemma parse_markdown_first lim l rest secs :
  parse_markdown lim (l :: rest) = Ok secs ->
  exists ty content after, secs = (ty, content) :: after
    /\ recognises lim ty (l :: rest)
    /\ (forall ty', rank ty' < rank ty -> ~ recognises lim ty' (l :: rest)).
Proof.
  intros H. apply parse_markdown_parsed in H.
  inversion H as [|lines ty content rem after prev f next E Hf Hn El Hp Hrem]; subst.
  exists ty, content, after. split; [reflexivity|]. split.
  - exists f, content, rem. split; [rewrite E; apply in_or_app; right; left; reflexivity|]. auto.
  - intros ty' Hr G. apply recognises_split in G. destruct G as (s & r & Hs & Hsn).
    apply (ranked_prev _ _ _ _ _ _ E) in Hr. rewrite Forall_forall in Hp.
    apply Hp in Hr. cbn [snd] in Hr. rewrite Hr in Hs. congruence.
Qed.
