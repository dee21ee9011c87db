(** Property C58: parts of a document separated by a blank line are formatted on their own;
    and a consequence for property C03. *)
From Coq Require Import String.
From Verif Require Import Py Regex Utils TextWrap Lines Detectors Formatters Base SpecLines SpecParser SpecFormat
  SpecDefinition SpecLocal ProofsLines ProofsParser ProofsShapes ProofsKinds ProofsForward ProofsPass ProofsChars
  ProofsDefinition PropsApi PropsLeaf PropsChars ProofsDocument PropsDocument ProofsLimit ProofsLocal.

(** * Parsing *)

Lemma parse_parts lim A b B sa sb :
  blank_line b -> parse_markdown lim A = Ok sa -> self_contained B sa -> parse_markdown lim B = Ok sb ->
  parse_markdown lim (A ++ b :: B) = Ok (sa ++ (BLANK_LINE, [b]) :: sb).
Proof.
  intros Hb Ha Hc Hs.
  assert (La := proj1 (parse_markdown_lossless _ _ _ Ha)).
  unfold parse_markdown, parse_with in *.
  assert (Fuel : forall n m ls secs, n <= m -> parse_loop (split_block_quote lim) n ls = Ok secs ->
            parse_loop (split_block_quote lim) m ls = Ok secs).
  { induction n as [|n IH]; intros m ls secs L E.
    - destruct ls; [|discriminate]. cbn in E. injection E as <-. destruct m; reflexivity.
    - destruct ls as [|l ls]; [cbn in E; injection E as <-; destruct m; reflexivity|].
      destruct m as [|m]; [lia|]. cbn [parse_loop] in *. bind_inv E. destruct a as [s rem]. rewrite E0. cbn [bind].
      bind_inv E. rewrite (IH m _ _ ltac:(lia) E1). exact E. }
  assert (G : forall after before n, sa = before ++ after -> length (concat (map snd after) ++ b :: B) <= n ->
    parse_loop (split_block_quote lim) n (concat (map snd after) ++ b :: B) = Ok (after ++ (BLANK_LINE, [b]) :: sb)).
  { induction after as [|[ty content] after IH]; intros before n E L; cbn [map concat snd app] in *.
    - cbn [length] in L. destruct n as [|n]; [lia|]. cbn [parse_loop]. rewrite first_split_blank by exact Hb. cbn [bind].
      rewrite (Fuel (length B) n B sb); [reflexivity|lia|exact Hs].
    - assert (Fs := first_split_append b B Hb lim before ty content after A).
      unfold parse_markdown, parse_with in Fs. assert (Ha' := Ha). assert (Hc' := Hc). rewrite E in Ha', Hc'. specialize (Fs Ha' Hc').
      assert (Hn : content <> []).
      { assert (P := Ha). rewrite E in P. apply (section_split lim) in P. apply P. }
      rewrite <- app_assoc in *. destruct content as [|l content]; [congruence|]. cbn [app] in *.
      destruct n as [|n]; [cbn in L; lia|]. cbn [parse_loop]. rewrite Fs. cbn [bind].
      rewrite (IH (before ++ [(ty, l :: content)])); [reflexivity| |].
      + rewrite <- app_assoc. exact E.
      + cbn [length] in L. rewrite app_length in L. lia. }
  rewrite <- La. apply (G sa []); reflexivity.
Qed.

(** * One pass *)

Lemma build_repr i last secs fs : build_formatters i last secs = Ok fs ->
  Forall (fun s => repr_check (fst s) (snd s) = Ok tt) secs.
Proof.
  revert i last fs. induction secs as [|[ty c] secs IH]; intros i last fs E; constructor; cbn [build_formatters] in E;
    bind_inv E; destruct a; [exact E0|]. bind_inv E. eauto.
Qed.

Lemma pass_repr lim text w out secs : reformat_pass (S lim) text w = Ok out ->
  parse_markdown lim (splitlines text) = Ok secs -> Forall (fun s => repr_check (fst s) (snd s) = Ok tt) secs.
Proof.
  intros E Hp. cbn [reformat_pass] in E. rewrite Hp in E. cbn [bind] in E. bind_inv E. eapply build_repr. eauto.
Qed.

Lemma section_text_index lim w i j ty c r : section_text lim w i ty c r -> section_text lim w j ty c r.
Proof.
  unfold section_text. destruct ty; auto. cbn [reformatted]. unfold fmt_table.
  destruct c as [|header [|divider body]]; try discriminate. cbv zeta.
  assert (G : forall h k ws, check_columns i h k ws = Ok tt -> check_columns j h k ws = Ok tt).
  { intros h k ws. revert k. induction ws as [|x ws IH]; intros k; [auto|]. cbn [check_columns].
    destruct (length x =? h); [apply IH|discriminate]. }
  intros E. bind_inv E. destruct a. rewrite (G _ _ _ E0). exact E.
Qed.

Lemma section_texts_index lim w i j secs texts : section_texts lim w i secs texts -> section_texts lim w j secs texts.
Proof.
  intros H. revert j. induction H; intros j; constructor; eauto using section_text_index.
Qed.

Lemma separated_after secs last ty : ty <> BLOCK_QUOTE -> separated (Some ty) secs = separated last secs \/ last = Some BLOCK_QUOTE.
Proof.
  intros H. destruct secs as [|[t r] secs]; [auto|]. cbn [separated].
  destruct last as [[]|]; auto; left; destruct ty; try congruence; destruct t; reflexivity.
Qed.

Lemma blank_text lim w i l r : blank_line l -> section_text lim w i BLANK_LINE [l] r -> r = [].
Proof. intros Hb H. assert (G := formatted_text _ _ _ _ _ (format_blank lim w l Hb) i). unfold section_text in *. rewrite H in G. inv G. reflexivity. Qed.

Lemma newline_terminated_cons r rs : newline_terminated (r :: rs) = r ++ c_nl :: newline_terminated rs.
Proof. unfold newline_terminated. cbn [map concat]. rewrite <- app_assoc. reflexivity. Qed.

Lemma combine_parts (sa : list section) ta (sb : list section) tb x : length ta = length sa ->
  separated None (combine (map fst (sa ++ (BLANK_LINE, x) :: sb)) (ta ++ [] :: tb))
  = separated None (combine (map fst sa) ta) ++ [] :: separated None (combine (map fst sb) tb).
Proof.
  intros L. rewrite map_app, combine_app by (rewrite map_length; auto). rewrite separated_app. f_equal.
  cbn [map fst combine separated].
  replace (match _ with Some BLOCK_QUOTE => _ | _ => _ end) with (@nil str)
    by (destruct (match rev _ with [] => _ | _ => _ end) as [[]|]; reflexivity).
  cbn [app]. f_equal. destruct (separated_after (combine (map fst sb) tb) None BLANK_LINE) as [E|E]; [discriminate|exact E|discriminate].
Qed.

Lemma pass_parts lim w text ta tb x sa oa ob :
  splitlines text = splitlines ta ++ x :: splitlines tb -> blank_line x ->
  splitlines ta <> [] -> splitlines tb <> [] ->
  parse_markdown lim (splitlines ta) = Ok sa -> self_contained (splitlines tb) sa ->
  reformat_pass (S lim) ta w = Ok oa -> reformat_pass (S lim) tb w = Ok ob ->
  reformat_pass (S lim) text w = Ok (oa ++ c_nl :: ob).
Proof.
  intros El Hx Na Nb Pa Hc Ea Eb.
  destruct (reformat_pass_inv _ _ _ _ Ea) as (sa' & xa & Pa' & Ta & ->).
  destruct (reformat_pass_inv _ _ _ _ Eb) as (sb & xb & Pb & Tb & ->).
  rewrite Pa in Pa'. apply ok_inj in Pa'. subst sa'.
  assert (P := parse_parts lim _ x _ _ _ Hx Pa Hc Pb). rewrite <- El in P.
  assert (Hne : forall ls ss xs, ls <> [] -> parse_markdown lim ls = Ok ss -> section_texts lim w 0 ss xs ->
            separated None (combine (map fst ss) xs) <> []).
  { intros ls ss xs N Ps Ts E. apply separated_nil in E. apply parse_markdown_lossless in Ps. destruct Ps as [Ps _].
    destruct Ts; [subst; cbn in N; congruence|]. discriminate. }
  rewrite (reformat_pass_ok lim text w _ (xa ++ [] :: xb) P).
  - f_equal. rewrite combine_parts by (eapply section_texts_length; exact Ta).
    assert (N1 := Hne _ _ _ Na Pa Ta). assert (N2 := Hne _ _ _ Nb Pb Tb).
    rewrite (finish_pass_ne _ N1), (finish_pass_ne _ N2), finish_pass_ne by (apply app_ne_r; discriminate).
    rewrite newline_terminated_app. f_equal.
  - apply Forall_app. split; [exact (pass_repr _ _ _ _ _ Ea Pa)|].
    constructor; [reflexivity|exact (pass_repr _ _ _ _ _ Eb Pb)].
  - apply section_texts_join; [exact Ta|]. intros j. constructor.
    + exact (formatted_text _ _ _ _ _ (format_blank lim w x Hx) j).
    + eapply section_texts_index. exact Tb.
Qed.

(** What a pass returns is made of lines. *)
Lemma lines_of_text s : Forall (fun c => is_linebreak c = true -> c = c_nl) s ->
  exists ls, s ++ [c_nl] = newline_terminated ls /\ ls <> [] /\ Forall one_line ls.
Proof.
  induction s as [|c s IH]; intros H.
  - exists [[]]. split; [reflexivity|]. split; [discriminate|]. repeat constructor.
  - inversion H as [|? ? Hc Hs]; subst. destruct (IH Hs) as (ls & E & Hn & Ho). cbn [app]. rewrite E.
    destruct (is_linebreak c) eqn:El.
    + rewrite (Hc eq_refl). exists ([] :: ls). split; [reflexivity|]. split; [discriminate|]. constructor; [constructor|exact Ho].
    + destruct ls as [|l ls]; [congruence|]. exists ((c :: l) :: ls). split; [reflexivity|]. split; [discriminate|].
      inversion Ho; subst. constructor; [constructor; assumption|assumption].
Qed.

Lemma pass_lines lim text w out : reformat_pass lim text w = Ok out ->
  exists ls, out = newline_terminated ls /\ ls <> [] /\ Forall one_line ls.
Proof.
  intros E.
  assert (G : Forall (fun c => is_linebreak c = true -> c = c_nl) out).
  { eapply ok_pass; [| |exact E].
    - intros d Hd Hb. unfold is_markup in Hd. apply orb_true_iff in Hd. destruct Hd as [Hd|Hd].
      + unfold is_digit in Hd. apply andb_true_iff in Hd. rewrite !N.leb_le in Hd.
        apply line_separators_spec in Hb. cbn in Hb. lia.
      + apply existsb_exists in Hd. destruct Hd as (x & Hx & Ex). apply N.eqb_eq in Ex.
        subst x. cbn in Hx. intuition (subst; auto; discriminate).
    - eapply Forall_impl; [|apply splitlines_no_linebreak].
      intros l Hl'. eapply Forall_impl; [|exact Hl']. cbn. intros. congruence. }
  destruct lim as [|lim]; [discriminate|]. apply reformat_pass_inv in E. destruct E as (secs & texts & _ & _ & E).
  rewrite finish_pass_join in E. subst out. apply Forall_app in G. apply lines_of_text. apply G.
Qed.

Lemma rstrip_append a b : rstrip b <> [] -> rstrip (a ++ b) = a ++ rstrip b.
Proof. intros H. unfold rstrip. apply rstrip_by_app_ne. exact H. Qed.

(** The first line with text is the same before and after trimming the end. *)
Lemma spaces_lines ls : spaces (newline_terminated ls) -> Forall blank_line ls.
Proof.
  induction ls as [|l ls IH]; intros H; [constructor|]. rewrite newline_terminated_cons in H.
  apply Forall_app in H. destruct H as [H1 H2]. inv H2. constructor; auto.
Qed.

Lemma indented_append l ws : spaces ws -> ~ blank_line l -> indented_line (l ++ ws) -> indented_line l.
Proof.
  intros Hw Hn (pre & c & body & E & Hp & Hc & L). apply app_eq_app in E. destruct E as (k & [[-> E]|[-> E]]).
  - destruct k as [|y k].
    + cbn in E. subst ws. inversion Hw; subst. congruence.
    + injection E as <- ->. exists pre, c, k. auto.
  - exfalso. apply Hn. apply Forall_app in Hp. apply Hp.
Qed.

Lemma trimmed_lines lb lr : Forall one_line lb -> lb <> [] -> Forall one_line lr ->
  rstrip (newline_terminated lb) ++ [c_nl] = newline_terminated lr ->
  exists front l ws blanks, lr = front ++ [l] /\ lb = front ++ (l ++ ws) :: blanks /\ spaces ws /\ Forall blank_line blanks.
Proof.
  intros Ob Nb Or E. destruct (rstrip_by_spec is_space (newline_terminated lb)) as (ws & Ew & Hw). fold (rstrip (newline_terminated lb)) in Ew.
  assert (Sw : spaces ws) by (apply Forall_forall, forallb_forall; exact Hw). clear Hw.
  assert (Hs : forall a c, rstrip (newline_terminated lb) = a ++ [c] -> is_space c = false) by (intros a c; apply (rstrip_by_last is_space)).
  set (s := rstrip (newline_terminated lb)) in *. clearbody s. revert lb s Ob Nb E Ew Hs.
  induction Or as [|l lr Hl Or IH]; intros lb s Ob Nb E Ew Hs; [destruct s; discriminate|].
  rewrite newline_terminated_cons in E. destruct lr as [|l2 lr].
  - cbn in E. apply app_inj_tail in E. destruct E as [-> _]. destruct lb as [|x lb]; [congruence|].
    rewrite newline_terminated_cons in Ew. apply app_eq_app in Ew. destruct Ew as (k & [[-> Ew]|[-> Ew]]).
    + exists [], l, k, lb. split; [reflexivity|]. split; [reflexivity|]. subst ws. apply Forall_app in Sw.
      destruct Sw as [S1 S2]. inversion S2; subst. split; [exact S1|apply spaces_lines; assumption].
    + destruct k as [|y k].
      * exists [], x, [], lb. cbn in Ew. rewrite !app_nil_r. split; [reflexivity|]. split; [reflexivity|].
        split; [constructor|]. subst ws. inversion Sw; subst. apply spaces_lines. assumption.
      * exfalso. injection Ew as <- _. apply Forall_app in Hl. destruct Hl as [_ Hl]. inversion Hl; subst. discriminate.
  - set (N := newline_terminated (l2 :: lr)) in *. assert (EN : exists s', N = s' ++ [c_nl]).
    { unfold N. rewrite newline_terminated_join by discriminate. eauto. }
    destruct EN as (s' & EN). rewrite EN in E. change (l ++ c_nl :: s' ++ [c_nl]) with (l ++ (c_nl :: s') ++ [c_nl]) in E.
    rewrite app_assoc in E. apply app_inj_tail in E. destruct E as [-> _].
    destruct lb as [|x lb]; [congruence|]. rewrite newline_terminated_cons in Ew. rewrite <- app_assoc in Ew. cbn [app] in Ew.
    assert (Nx : forall a b c d : str, one_line a -> one_line b -> a ++ c_nl :: c = b ++ c_nl :: d -> a = b /\ c = d).
    { intros a. induction a as [|y a IHa]; intros [|z b] c d Ha Hb G; cbn [app] in G.
      - injection G as ->. auto.
      - injection G as <- _. inversion Hb; subst. discriminate.
      - injection G as -> _. inversion Ha; subst. discriminate.
      - injection G as <- G. inversion Ha; subst. inversion Hb; subst. destruct (IHa _ _ _ H2 H4 G) as [-> ->]. auto. }
    inversion Ob; subst. destruct (Nx _ _ _ _ H1 Hl Ew) as [-> Ew'].
    assert (Nl : lb <> []).
    { intros ->. cbn in Ew'. symmetry in Ew'. apply app_eq_nil in Ew'. destruct Ew' as [-> _]. specialize (Hs l c_nl eq_refl). discriminate. }
    destruct (IH lb s' H2 Nl) as (front & l' & ws' & bl & E1 & E2 & Hw & Hb); [symmetry; exact EN|exact Ew'|intros a c G; apply (Hs (l ++ c_nl :: a) c); rewrite G, <- app_assoc; reflexivity|].
    exists (l :: front), l', ws', bl. rewrite E1, E2. auto.
Qed.

Lemma unindented_trimmed lb lr : Forall one_line lb -> lb <> [] -> Forall one_line lr ->
  rstrip (newline_terminated lb) ++ [c_nl] = newline_terminated lr ->
  starts_unindented lr -> starts_unindented lb.
Proof.
  intros Ob Nb Or E H. destruct (trimmed_lines lb lr Ob Nb Or E) as (front & l & ws & bl & -> & -> & Hw & Hbl).
  destruct H as [H|(blanks & x & more & Eq & Hb & Hx & Hi)].
  - left. apply Forall_app in H. destruct H as [H1 H2]. inversion H2; subst. apply Forall_app. split; [exact H1|].
    constructor; [|exact Hbl]. apply Forall_app. auto.
  - right. apply app_eq_app in Eq. destruct Eq as (k & [[-> Eq]|[-> Eq]]).
    + destruct k as [|y k].
      * cbn in Eq. injection Eq as <- _. exists blanks, (x ++ ws), bl. split; [rewrite app_nil_r; reflexivity|]. split; [exact Hb|].
        split; [intros G; apply Forall_app in G; tauto|]. intros G. apply Hi. eapply indented_append; eauto.
      * injection Eq as <- _. exists blanks, x, (k ++ (l ++ ws) :: bl). split; [rewrite <- app_assoc; reflexivity|]. auto.
    + destruct k as [|y k].
      * cbn in Eq. injection Eq as <- _. rewrite app_nil_r in *. exists front, (l ++ ws), bl. split; [reflexivity|]. split; [exact Hb|].
        split; [intros G; apply Forall_app in G; tauto|]. intros G. apply Hi. eapply indented_append; eauto.
      * exfalso. cbn [app] in Eq. injection Eq as _ Eq. destruct k; discriminate.
Qed.

(** * C58 *)

(** The sections before a blank line are the same as without what follows it, and so are
    those after it. *)
Theorem C58_parsed_apart : forall lim a x b sa sb,
  blank_line x -> parse_markdown lim a = Ok sa -> self_contained b sa -> parse_markdown lim b = Ok sb ->
  parse_markdown lim (a ++ x :: b) = Ok (sa ++ (BLANK_LINE, [x]) :: sb).
Proof. intros. apply parse_parts; assumption. Qed.

(** Two texts that are formatted successfully, the first one so that nothing has to be
    trimmed at its end, are formatted to the same with a blank line between them. *)
Theorem C58_formatted_apart : forall lim w text ta tb x ra rb sa sa',
  splitlines text = splitlines ta ++ x :: splitlines tb -> blank_line x -> ta <> [] -> tb <> [] ->
  reformat_pass (S lim) ta w = Ok ra -> reformat_markdown_text (S lim) ta w = Ok ra ->
  reformat_markdown_text (S lim) tb w = Ok rb -> rb <> [c_nl] ->
  parse_markdown lim (splitlines ta) = Ok sa -> self_contained (splitlines tb) sa ->
  parse_markdown lim (splitlines ra) = Ok sa' -> self_contained (splitlines rb) sa' ->
  reformat_markdown_text (S lim) text w = Ok (ra ++ [c_nl] ++ rb).
Proof.
  intros lim w text ta tb x ra rb sa sa' El Hx Na Nb Ea Ra Rb Hrb Pa Ca Pr Cr.
  assert (Ns : forall t, t <> [] -> splitlines t <> []).
  { intros [|c t] N; [congruence|]. cbn [splitlines]. destruct (is_linebreak c).
    - destruct t as [|d t]; [discriminate|]. destruct (N.eqb c c_cr && N.eqb d c_nl); discriminate.
    - destruct (splitlines t); discriminate. }
  destruct (reformat_ok_pass _ _ _ _ Ra) as (t & Ea' & Fa & Era). rewrite Ea in Ea'. apply ok_inj in Ea'. subst t.
  destruct (reformat_ok_pass _ _ _ _ Rb) as (ob & Eb & Fb & Erb). subst rb.
  assert (P1 := pass_parts _ _ _ _ _ _ _ _ _ El Hx (Ns _ Na) (Ns _ Nb) Pa Ca Ea Eb).
  destruct (pass_lines _ _ _ _ Ea) as (la & Ela & Nla & Ola). destruct (pass_lines _ _ _ _ Eb) as (lb & Elb & Nlb & Olb).
  assert (Co : self_contained (splitlines ob) sa').
  { assert (Gs : Forall (fun c => is_linebreak c = true -> c = c_nl) (rstrip ob)).
    { destruct (rstrip_by_spec is_space ob) as (post & Ew & _). fold (rstrip ob) in Ew.
      assert (G : Forall (fun c => is_linebreak c = true -> c = c_nl) ob).
      { rewrite Elb. clear -Olb. induction Olb as [|l ls Hl Ols IH]; [constructor|]. rewrite newline_terminated_cons.
        apply Forall_app. split; [|constructor; [auto|exact IH]]. eapply Forall_impl; [|exact Hl]. cbn. congruence. }
      rewrite Ew in G. apply Forall_app in G. apply G. }
    destruct (lines_of_text _ Gs) as (lr & Elr & Nlr & Olr).
    rewrite Elr, splitlines_newline_terminated in Cr by exact Olr. rewrite Elb in Elr |- *. rewrite splitlines_newline_terminated by exact Olb.
    intros before ty content after E. specialize (Cr before ty content after E). cbv zeta in *. destruct ty; auto.
    destruct Cr as [Cr|Cr]; [auto|]. right. eapply unindented_trimmed; eauto. }
  assert (P2 : reformat_pass (S lim) (ra ++ c_nl :: ob) w = Ok (ra ++ c_nl :: ob)).
  { eapply (pass_parts lim w _ ra ob []); eauto.
    - rewrite Ela, Elb. rewrite !splitlines_newline_terminated by assumption.
      change (c_nl :: newline_terminated lb) with (newline_terminated ([] :: lb)).
      rewrite <- newline_terminated_app. apply splitlines_newline_terminated.
      apply Forall_app. split; [exact Ola|]. constructor; [constructor|exact Olb].
    - constructor.
    - rewrite Ela, splitlines_newline_terminated by assumption. exact Nla.
    - rewrite Elb, splitlines_newline_terminated by assumption. exact Nlb. }
  unfold reformat_markdown_text. rewrite P1. cbn [bind]. rewrite P2. cbn [bind]. rewrite str_eqb_refl. f_equal.
  assert (No : rstrip ob <> []) by (intros E; rewrite E in Hrb; contradiction).
  change (c_nl :: ob) with ([c_nl] ++ ob). assert (E1 := rstrip_append [c_nl] ob No).
  rewrite (rstrip_append ra), E1; [rewrite <- !app_assoc; reflexivity|]. rewrite E1. discriminate.
Qed.

(** * C03 *)

(** Blank lines trimmed at the end do not matter, if the sections of the result do not
    depend on what follows them. *)
Theorem C03_blank_lines_partial : forall lim text w body n secs,
  reformat_pass (S lim) text w = Ok (body ++ [c_nl] ++ repeat c_nl n) -> no_trailing_space body ->
  parse_markdown lim (splitlines (body ++ [c_nl])) = Ok secs -> self_contained [] secs ->
  forall r, reformat_markdown_text (S lim) text w = Ok r ->
  r = body ++ [c_nl] /\ reformat_markdown_text (S lim) r w = Ok r.
Proof.
  intros lim text w body n secs H Hb Hp Hc r Hr.
  destruct n as [|n].
  { cbn [repeat] in H. eapply C03_idempotence_partial; eauto. }
  destruct (reformat_ok_pass _ _ _ _ Hr) as (t & H1 & H2 & ->). rewrite H in H1. apply ok_inj in H1. subst t.
  assert (Er : rstrip (body ++ [c_nl] ++ repeat c_nl (S n)) = body).
  { symmetry. apply trimmed_rstrip. split; [exact Hb|]. exists ([c_nl] ++ repeat c_nl (S n)). split; [reflexivity|].
    apply Forall_app. split; [repeat constructor|]. apply Forall_forall. intros c Hi. apply repeat_spec in Hi. subst c. reflexivity. }
  rewrite Er. split; [reflexivity|].
  destruct (pass_lines _ _ _ _ H) as (ls & Els & Nls & Ols).
  assert (Eb : exists la, body ++ [c_nl] = newline_terminated la /\ Forall one_line la /\ la <> []).
  { assert (Hc' : Forall (fun c => is_linebreak c = true -> c = c_nl) (body ++ [c_nl] ++ repeat c_nl (S n))).
    { rewrite Els. clear -Ols. induction Ols as [|l ls Hl Ols IH]; [constructor|]. rewrite newline_terminated_cons.
      apply Forall_app. split; [|constructor; [auto|exact IH]]. eapply Forall_impl; [|exact Hl]. cbn. congruence. }
    apply Forall_app in Hc'. destruct (lines_of_text body (proj1 Hc')) as (la & E & N & O). eauto. }
  destruct Eb as (la & Ela & Ola & Nla).
  assert (Enl : forall m, repeat c_nl m = newline_terminated (repeat [] m)).
  { induction m as [|m IH]; [reflexivity|]. cbn [repeat]. rewrite IH. reflexivity. }
  assert (Et : body ++ [c_nl] ++ repeat c_nl (S n) = newline_terminated (la ++ [] :: repeat [] n)).
  { rewrite app_assoc, Ela, newline_terminated_app. f_equal. exact (Enl (S n)). }
  rewrite Et in H2. rewrite Ela in Hp |- *. rewrite splitlines_newline_terminated in Hp by exact Ola.
  assert (Osp : Forall one_line (la ++ [] :: repeat [] n)).
  { apply Forall_app. split; [exact Ola|]. constructor; [constructor|]. apply Forall_forall. intros x Hx. apply repeat_spec in Hx. subst x. constructor. }
  assert (Pb : forall m, parse_markdown lim (repeat [] m) = Ok (repeat (BLANK_LINE, [[]]) m)).
  { intros m. unfold parse_markdown, parse_with. rewrite repeat_length. induction m as [|m IH]; [reflexivity|].
    cbn [repeat parse_loop]. rewrite first_split_blank by constructor. cbn [bind]. rewrite IH. reflexivity. }
  assert (Cn : self_contained (repeat [] n) secs).
  { intros before ty content after E. specialize (Hc before ty content after E). cbv zeta in *. destruct ty; auto.
    right. left. apply Forall_forall. intros x Hx. apply repeat_spec in Hx. subst x. constructor. }
  assert (P := parse_parts lim la [] (repeat [] n) secs _ ltac:(constructor) Hp Cn (Pb n)).
  assert (Sp := splitlines_newline_terminated _ Osp).
  destruct (reformat_pass_inv _ _ _ _ H2) as (s' & xs & P' & T & Eo).
  rewrite Sp, P in P'. apply ok_inj in P'. subst s'.
  apply section_texts_app in T. destruct T as (ta & t2 & -> & Ta & T2).
  inversion T2 as [|i ty c s2 r tb Hr0 T3]; subst.
  apply blank_text in Hr0; [|constructor]. subst r.
  assert (Hrep := pass_repr _ _ _ _ _ H2 ltac:(rewrite Sp; exact P)).
  apply Forall_app in Hrep. destruct Hrep as [Hrep _].
  assert (Pa : reformat_pass (S lim) (newline_terminated la) w = Ok (finish_pass (separated None (combine (map fst secs) ta)))).
  { apply reformat_pass_ok; [rewrite splitlines_newline_terminated by exact Ola; exact Hp|exact Hrep|exact Ta]. }
  rewrite combine_parts in Eo by (eapply section_texts_length; exact Ta).
  rewrite finish_pass_ne in Eo by (apply app_ne_r; discriminate).
  assert (Tb : tb = repeat [] n).
  { clear -T3. revert T3. generalize (0 + length (concat (map snd secs)) + length [@nil N]). intros j T3.
    remember (repeat (BLANK_LINE, [[]]) n) as ss eqn:E. revert n E. induction T3 as [|j ty c ss r tb Hr T3 IH]; intros [|n] E; try discriminate; [reflexivity|].
    cbn [repeat] in E. injection E as -> -> E. apply blank_text in Hr; [|constructor]. subst r. cbn [repeat]. f_equal. eauto. }
  subst tb.
  assert (Es : separated None (combine (map fst (repeat (BLANK_LINE, [@nil char]) n)) (repeat [] n)) = repeat [] n).
  { clear. generalize (@None section_type). induction n as [|n IH]; intros last; [reflexivity|].
    cbn [repeat map fst combine separated]. rewrite IH. destruct last as [[]|]; reflexivity. }
  rewrite Es, !newline_terminated_app in Eo. apply app_inv_tail in Eo.
  assert (Ne : separated None (combine (map fst secs) ta) <> []).
  { intros E. rewrite E in Eo. destruct la as [|l la]; [congruence|]. rewrite newline_terminated_cons in Eo. destruct l; discriminate. }
  rewrite finish_pass_ne in Pa by exact Ne. rewrite <- Eo in Pa.
  unfold reformat_markdown_text. rewrite Pa. cbn [bind]. rewrite Pa. cbn [bind]. rewrite str_eqb_refl. f_equal.
  rewrite <- Ela. f_equal. unfold rstrip. rewrite rstrip_by_app by reflexivity.
  destruct Hb as [->|(y & c & -> & Hc0)]; [reflexivity|]. apply rstrip_by_snoc. exact Hc0.
Qed.

(** * Examples *)

Definition ex_part1 : list section :=
  [(ATX_HEADING, [lit "#  A"]); (FENCED_CODE_BLOCK, [lit "~~~  sh"; lit "x"; lit ""; lit "~~~"]);
   (LINK_REFERENCE_DEFINITION, [lit "[a]: /b"]); (BULLET_LIST, [lit "*  c"; lit "   d"; lit "    e"])].
Definition ex_part1_out : list section :=
  [(ATX_HEADING, [lit "# A"]); (FENCED_CODE_BLOCK, [lit "~~~sh"; lit "x"; lit ""; lit "~~~"]);
   (LINK_REFERENCE_DEFINITION, [lit "[a]: /b"]); (BULLET_LIST, [lit "* c d e"])].
Definition ex_part2 : list str := [lit "    code"; lit ""; lit "> q"; lit "r"; lit ""; lit ""].
Definition ex_part2_out : list str := [lit "    code"; lit ""; lit "> q r"].

Lemma ex_definition y rest : hd c_sp y <> c_squote -> hd c_sp y <> c_dquote -> definition_whole [lit "[a]: /b"] (y :: rest).
Proof.
  intros H1 H2. right. left. exists (lit " /b"), (lit "/b"), [lit "[a]: /b"], [].
  split.
  { left. exists (lit "[a]: /b"). split; [reflexivity|]. exists [], (lit "a"). split; [reflexivity|]. split; [constructor|].
    split; [cbn; lia|]. split; [repeat constructor; discriminate|cbn; lia]. }
  split; [reflexivity|]. split; [reflexivity|]. left. split; [reflexivity|]. exists y, rest. split; [reflexivity|].
  intros q t -> [E|E]; cbn in *; congruence.
Qed.

Lemma ex_fence l info x y : l = lit "~~~" ++ info -> hd c_sp info <> c_tilde ->
  exists l' body close fence, [l; x; y; lit "~~~"] = l' :: body ++ [close] /\ opens l' fence /\ closes fence close.
Proof.
  intros -> H. exists (lit "~~~" ++ info), [x; y], (lit "~~~"), (lit "~~~"). split; [reflexivity|]. split.
  - exists [], c_tilde, 3, info. split; [reflexivity|]. split; [constructor|]. split; [cbn; auto|]. split; [lia|].
    split; [intros t ->; cbn in H; congruence|reflexivity].
  - exists [], []. split; [reflexivity|]. split; constructor.
Qed.

Ltac contained :=
  let before := fresh "before" in
  intros before ty content after E; unfold ex_part1, ex_part1_out in E;
  repeat (destruct before as [|? before]; [injection E as <- <- <-|injection E as _ E]);
  [..|destruct before; discriminate E]; cbv zeta; cbn [map snd concat app]; try exact I.

Example C58_nonvacuous :
  let t1 := newline_terminated (concat (map snd ex_part1)) in
  let r1 := newline_terminated (concat (map snd ex_part1_out)) in
  let t2 := newline_terminated ex_part2 in
  let r2 := newline_terminated ex_part2_out in
  reformat_pass 9 t1 (WInt 88) = Ok r1 /\ reformat_markdown_text 9 t1 (WInt 88) = Ok r1
  /\ reformat_markdown_text 9 t2 (WInt 88) = Ok r2
  /\ reformat_markdown_text 9 (t1 ++ [c_sp; c_nl] ++ t2) (WInt 88) = Ok (r1 ++ [c_nl] ++ r2)
  /\ parse_markdown 8 (concat (map snd ex_part1)) = Ok ex_part1 /\ self_contained ex_part2 ex_part1
  /\ parse_markdown 8 (concat (map snd ex_part1_out)) = Ok ex_part1_out /\ self_contained ex_part2_out ex_part1_out.
Proof.
  cbv zeta. do 5 (split; [vm_compute; reflexivity|]). split; [|split; [vm_compute; reflexivity|]].
  - contained.
    + apply (ex_fence _ (lit "  sh")); [reflexivity|discriminate].
    + apply ex_definition; discriminate.
  - contained.
    + apply (ex_fence _ (lit "sh")); [reflexivity|discriminate].
    + apply ex_definition; discriminate.
Qed.

(** What is left open is not ended by a blank line. *)
Example C58_open_fence :
  reformat_markdown_text 9 (newline_terminated [lit "~~~"; lit "x"]) (WInt 88) = Ok (newline_terminated [lit "~~~"; lit "~~~"])
  /\ reformat_markdown_text 9 (newline_terminated [lit "*  a"]) (WInt 88) = Ok (newline_terminated [lit "* a"])
  /\ exists r, reformat_markdown_text 9 (newline_terminated [lit "~~~"; lit "x"; lit ""; lit "*  a"]) (WInt 88) = Ok r
       /\ r <> newline_terminated [lit "~~~"; lit "~~~"; lit ""; lit "* a"].
Proof.
  split; [vm_compute; reflexivity|]. split; [vm_compute; reflexivity|]. eexists. split; [vm_compute; reflexivity|]. discriminate.
Qed.

Example C03_blank_lines_nonvacuous :
  let text := newline_terminated (concat (map snd ex_part1) ++ [[]; lit " "; []]) in
  let body := str_join [c_nl] (concat (map snd ex_part1_out)) in
  reformat_pass 9 text (WInt 88) = Ok (body ++ [c_nl] ++ repeat c_nl 3)
  /\ no_trailing_space body
  /\ parse_markdown 8 (splitlines (body ++ [c_nl])) = Ok ex_part1_out /\ self_contained [] ex_part1_out
  /\ reformat_markdown_text 9 text (WInt 88) = Ok (body ++ [c_nl]).
Proof.
  cbv zeta. split; [vm_compute; reflexivity|]. split.
  { right. exists (removelast (str_join [c_nl] (concat (map snd ex_part1_out)))), 101%N. split; [vm_compute; reflexivity|reflexivity]. }
  split; [vm_compute; reflexivity|]. split; [|vm_compute; reflexivity].
  contained.
  - apply (ex_fence _ (lit "sh")); [reflexivity|discriminate].
  - apply ex_definition; discriminate.
Qed.
